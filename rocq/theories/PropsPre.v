(** Pre-tokenization: C57-C63. *)
From Verif Require Import Base BaseFacts Unicode Common Normalizer PreTokenizer NormSpec NormProofs DecSpec DecProofs UnicodeProofs PreSpec PreProofs Env.
From Coq Require Import ZifyBool.

(** ** C57 *)
Lemma with_gaps_adjacent l : forall cur len, adjacent (fun p q : (nat * nat) * bool => snd p = true \/ snd q = true) (with_gaps cur len l).
Proof.
  induction l as [|m l IH]; intros cur len; cbn [with_gaps].
  - destruct (cur <? len); cbn; auto.
  - assert (G : adjacent (fun p q : (nat * nat) * bool => snd p = true \/ snd q = true) ((m, true) :: with_gaps (snd m) len l)).
    { cbn [adjacent]. split; [|apply IH]. destruct (with_gaps (snd m) len l); [exact I | left; reflexivity]. }
    destruct (cur =? fst m); [exact G|]. cbn [app adjacent]. cbn [adjacent] in G. split; [right; reflexivity | exact G].
Qed.
Lemma with_gaps_segments len l : ordered 0 len l -> segments len l (with_gaps 0 len l).
Proof. intros H. split; [|split; [|split]]; [apply with_gaps_chained; exact H | apply with_gaps_matches | apply with_gaps_nonempty; exact H | apply with_gaps_adjacent]. Qed.

Lemma split_normalized_spec E pat b s l : regex_matches E pat (from_utf8 (sp_text s)) = Ok l ->
  split_normalized s (find_matches E pat) b =
  Ok (map (cut_out s) (map fst (match b with ISOLATED => with_gaps 0 (length (from_utf8 (sp_text s))) l
                                | REMOVED => filter (fun m => negb (snd m)) (with_gaps 0 (length (from_utf8 (sp_text s))) l) end))).
Proof.
  intros H. unfold split_normalized, find_matches. rewrite H. cbn [bind]. f_equal. unfold cut_out, slice, usub_between, usub. destruct b.
  - rewrite map_map. apply map_ext. intros [[a z] f]. reflexivity.
  - rewrite filter_removed_isolated, !map_map. apply map_ext. intros [[a z] f]. reflexivity.
Qed.

(** Pre-tokenizing with a pattern treats every piece on its own, in order: recognised ones are kept as they are, the others are
    cut into the matches and the gaps between them, and Removed drops exactly the matches. *)
Theorem C57_split_pieces : forall E pat b inv p,
  Forall (fun s => sp_tokens s = [] -> engine_ok E pat (from_utf8 (sp_text s))) (pt_splits p) ->
  exists out, pre_tokenize E (TSplit pat b inv) p = Ok (mkPt (pt_norm p) (concat out)) /\
  Forall2 (fun s pieces =>
    (sp_tokens s <> [] -> pieces = [s]) /\
    (sp_tokens s = [] -> exists l segs, regex_matches E pat (from_utf8 (sp_text s)) = Ok l /\
       segments (length (from_utf8 (sp_text s))) l segs /\
       pieces = map (cut_out s) (map fst (match b with ISOLATED => segs | REMOVED => filter (fun m => negb (snd m)) segs end))))
    (pt_splits p) out.
Proof.
  intros E pat b inv [ns l] H. cbn [pt_splits pt_norm] in *. cbn [pre_tokenize]. unfold split_pre_tokenize, pt_split. cbn [pt_splits pt_norm].
  assert (G : exists out, split_all (find_matches E pat) b l = Ok (concat out) /\ Forall2 (fun s pieces =>
    (sp_tokens s <> [] -> pieces = [s]) /\
    (sp_tokens s = [] -> exists l segs, regex_matches E pat (from_utf8 (sp_text s)) = Ok l /\
       segments (length (from_utf8 (sp_text s))) l segs /\
       pieces = map (cut_out s) (map fst (match b with ISOLATED => segs | REMOVED => filter (fun m => negb (snd m)) segs end)))) l out).
  { induction H as [|s l Hs _ (out & IH1 & IH2)]; [exists []; split; [reflexivity | constructor]|]. cbn [split_all].
    destruct (is_nil (sp_tokens s)) eqn:Et.
    - apply is_nil_true in Et. destruct (Hs Et) as (ms & Hm & Ho & _). rewrite (split_normalized_spec E pat b s ms Hm). cbn [bind]. rewrite IH1. cbn [bind].
      eexists (_ :: out). split; [reflexivity|]. constructor; [|exact IH2]. split; [intros C; congruence|]. intros _.
      exists ms, (with_gaps 0 (length (from_utf8 (sp_text s))) ms). split; [exact Hm|]. split; [apply with_gaps_segments; exact Ho | reflexivity].
    - apply is_nil_false in Et. cbn [bind]. rewrite IH1. cbn [bind]. exists ([s] :: out). split; [reflexivity|]. constructor; [|exact IH2]. split; [reflexivity | intros C; congruence]. }
  destruct G as (out & G1 & G2). exists out. rewrite G1. split; [reflexivity | exact G2].
Qed.
Print Assumptions C57_split_pieces.

(** Isolated is lossless: on a piece with text [cs] the resulting offsets tile its own span and the texts concatenate to its text. *)
Theorem C57_isolated_lossless : forall E pat inv ns cs a, forallb valid_cp cs = true -> engine_ok E pat (flat_map utf16_enc cs) ->
  exists pieces, pre_tokenize E (TSplit pat ISOLATED inv) (mkPt ns [mkSplit (utf8_encs cs) (a, a + units cs) []]) = Ok (mkPt ns pieces) /\
  chained a (a + units cs) (map sp_off pieces) /\
  concat (map sp_text pieces) = utf8_encs cs /\
  Forall (fun p => sp_tokens p = []) pieces.
Proof.
  intros E pat inv ns cs a Hv HE. pose proof (from_utf8_encs cs Hv) as Hu. set (s := mkSplit (utf8_encs cs) (a, a + units cs) []).
  destruct HE as (l & Hl & Ho & Hb). rewrite <- Hu in Hl, Ho, Hb. cbn [pre_tokenize]. unfold split_pre_tokenize, pt_split. cbn [pt_splits pt_norm split_all is_nil sp_tokens s].
  rewrite (split_normalized_spec E pat ISOLATED s l) by exact Hl. cbn [bind]. rewrite app_nil_r. eexists. split; [reflexivity|].
  change (sp_text s) with (utf8_encs cs). set (u := from_utf8 (utf8_encs cs)) in *. set (segs := map fst (with_gaps 0 (length u) l)).
  assert (Hlen : length u = units cs) by (rewrite Hu; reflexivity).
  assert (Hc : chained 0 (length u) segs) by (apply with_gaps_chained; exact Ho).
  split; [|split].
  - rewrite map_map. cbn [cut_out sp_off s fst]. rewrite <- Hlen. clear - Hc. assert (G : forall x z, chained x z segs -> chained (x + a) (z + a) (map (fun m => (fst m + a, snd m + a)) segs)).
    { clear Hc. induction segs as [|[p q] r IH]; intros x z H; cbn in *; [lia|]. destruct H as (-> & H1 & H2). repeat split; [lia | apply IH; exact H2]. }
    specialize (G _ _ Hc). cbn [Nat.add] in G. rewrite (Nat.add_comm (length u)) in G. exact G.
  - rewrite map_map. cbn [cut_out sp_text s]. fold u. rewrite (chained_text u segs 0 Hc (Nat.le_0_l _)).
    + unfold slice. rewrite Nat.sub_0_r. cbn [skipn]. rewrite firstn_all. rewrite Hu. apply to_utf8_encs. exact Hv.
    + unfold segs. assert (HE : forall c, chained c (length u) (map fst (with_gaps c (length u) l)) -> Forall (fun m => char_boundary u (snd m)) (map fst (with_gaps c (length u) l))).
      { clear Hc Ho segs Hl. induction Hb as [|m l [H1 H2] _ IH]; intros c.
        - cbn [with_gaps]. intros _. destruct (c <? length u); cbn; constructor; [|constructor]. cbn. intros q h t Hq Hh Ht _. assert (nth_error u (length u) = None) by (apply nth_error_None; lia). congruence.
        - cbn [with_gaps]. intros Hc. destruct (c =? fst m); cbn [app map fst chained] in Hc |- *.
          + destruct m as [x y]. destruct Hc as (_ & _ & Hc). constructor; [exact H2 | apply IH; exact Hc].
          + destruct m as [x y]. destruct Hc as (_ & _ & _ & _ & Hc). constructor; [exact H1|]. constructor; [exact H2 | apply IH; exact Hc]. }
      apply HE. exact Hc.
  - apply Forall_map. apply Forall_forall. reflexivity.
Qed.
Print Assumptions C57_isolated_lossless.

(** For the patterns the library itself uses (white space, punctuation, the byte-level pattern) the engine's behaviour is part of
    the model, so nothing is assumed of the pattern. *)
Theorem C57_fixed_patterns : forall E pat t, In pat [str "\s+"; str "\p{P}"; str "'s|'"] -> engine_ok E pat (from_utf8 t).
Proof. intros E pat t H. apply fixed_patterns_ok. exact H. Qed.
Print Assumptions C57_fixed_patterns.
Example C57_case : exists p, pre_tokenize test_env (TSplit (str "\p{P}") ISOLATED false)
    (mkPt (new_nstring (str "ab, c")) [mkSplit (str "ab, c") (0, 5) []]) = Ok p /\
  map sp_off (pt_splits p) = [(0, 2); (2, 3); (3, 5)] /\ map sp_text (pt_splits p) = [str "ab"; str ","; str " c"].
Proof. eexists. split; [vm_compute; reflexivity|]. split; reflexivity. Qed.

(** ** C58 *)
(** BERT pre-tokenization of any list of pieces: recognised ones are kept, every other piece is replaced by the BERT words of its
    text (the code points of the text, ill-formed bytes read as U+FFFD), with their positions. *)
Theorem C58_bert_pre_tokenize : forall E p, exists out, pre_tokenize E TBert p = Ok (mkPt (pt_norm p) (concat out)) /\
  Forall2 (fun s pieces =>
    (sp_tokens s <> [] -> pieces = [s]) /\
    (sp_tokens s = [] -> exists ws, bert_words (e_u_space E) (e_u_punct E) (decoded (sp_text s)) ws /\ pieces = map (piece_split (fst (sp_off s))) ws))
    (pt_splits p) out.
Proof.
  intros E p. exists (map (bert_out E) (pt_splits p)). split.
  - cbn [pre_tokenize]. rewrite bert_pre_spec, flat_map_concat_map. reflexivity.
  - apply forall2_map. intros s _. unfold bert_out. split; intros H.
    + apply is_nil_false in H. rewrite H. reflexivity.
    + apply is_nil_true in H. rewrite H. eexists. split; [apply bert_pieces_words | reflexivity].
Qed.
Print Assumptions C58_bert_pre_tokenize.

(** The same for a whole text with no recognised token. *)
Theorem C58_bert_text : forall E s, forallb valid_cp s = true -> exists p0 ws p, new_pretok (new_nstring s) = Ok p0 /\
  pre_tokenize E TBert p0 = Ok p /\ bert_words (e_u_space E) (e_u_punct E) s ws /\ pt_splits p = map (piece_split 0) ws.
Proof.
  intros E s Hv. destruct (fresh_packed s) as [_ Ht]. unfold new_pretok. rewrite Ht. unfold convert_to_string. rewrite Hv. cbn [bind].
  eexists. exists (bert_pieces (e_u_space E) (e_u_punct E) s). eexists. split; [reflexivity|]. split.
  - cbn [pre_tokenize]. rewrite bert_pre_spec. reflexivity.
  - split; [apply bert_pieces_words|]. cbn [pt_splits flat_map]. rewrite app_nil_r. unfold bert_out. cbn [sp_tokens is_nil sp_off fst sp_text].
    rewrite decoded_encs by exact Hv. reflexivity.
Qed.
Print Assumptions C58_bert_text.
Example C58_case : exists p0 p, new_pretok (new_nstring (str " Hi, it's")) = Ok p0 /\ pre_tokenize test_env TBert p0 = Ok p /\
  map (fun s => (sp_text s, sp_off s)) (pt_splits p) =
  [(str "Hi", (1, 3)); (str ",", (3, 4)); (str "it", (5, 7)); (str "'", (7, 8)); (str "s", (8, 9))].
Proof. eexists. eexists. split; [vm_compute; reflexivity|]. split; [vm_compute; reflexivity | reflexivity]. Qed.

(** ** C59 *)
Lemma split_all_recognised fn b l : forall l', split_all fn b l = Ok l' -> filter (fun s => negb (is_nil (sp_tokens s))) l' = filter (fun s => negb (is_nil (sp_tokens s))) l.
Proof.
  induction l as [|s l IH]; intros l' H; cbn [split_all] in H; [injection H as <-; reflexivity|].
  destruct (is_nil (sp_tokens s)) eqn:Et.
  - apply bind_ok in H as (here & H1 & H). apply bind_ok in H as (rest & H2 & H). injection H as <-. cbn [filter]. rewrite Et. cbn [negb].
    rewrite filter_app, (IH rest H2). unfold split_normalized in H1. apply bind_ok in H1 as (ms & _ & H1). injection H1 as <-.
    match goal with |- filter _ (map _ ?x) ++ ?y = _ => generalize x end. clear. intros x. induction x as [|[[a z] f] x IHx]; [reflexivity | exact IHx].
  - cbn [bind] in H. apply bind_ok in H as (rest & H2 & H). injection H as <-. cbn [app filter]. rewrite Et. cbn [negb]. rewrite (IH rest H2). reflexivity.
Qed.

(** The pre-tokenizers that do not remap bytes: BERT, Split and sequences of them. *)
Fixpoint no_byte_level (t : pre_tokenizer) : Prop :=
  match t with
  | TByteLevel _ _ => False
  | TSequence l => (fix go l := match l with [] => True | q :: r => no_byte_level q /\ go r end) l
  | _ => True
  end.

Theorem C59_recognised_kept : forall E t, no_byte_level t -> forall p p', pre_tokenize E t p = Ok p' ->
  filter (fun s => negb (is_nil (sp_tokens s))) (pt_splits p') = filter (fun s => negb (is_nil (sp_tokens s))) (pt_splits p).
Proof.
  intros E. fix IH 1. intros [|pat b inv|aps rx|l] Ht p p' H.
  - cbn [pre_tokenize] in H. unfold bert_pre_tokenize, pt_split in H. apply bind_ok in H as (p1 & H1 & H). apply bind_ok in H1 as (l1 & H1 & E1). injection E1 as <-.
    apply bind_ok in H as (l2 & H2 & E2). injection E2 as <-. cbn [pt_splits] in *. rewrite (split_all_recognised _ _ _ _ H2). apply (split_all_recognised _ _ _ _ H1).
  - cbn [pre_tokenize] in H. unfold split_pre_tokenize, pt_split in H. apply bind_ok in H as (l1 & H1 & E1). injection E1 as <-. apply (split_all_recognised _ _ _ _ H1).
  - destruct Ht.
  - cbn [pre_tokenize] in H. cbn [no_byte_level] in Ht. revert p H. induction l as [|q r IHr]; intros p H; [injection H as <-; reflexivity|].
    destruct Ht as [Hq Hr]. apply bind_ok in H as (p1 & H1 & H). rewrite (IHr Hr p1 H). exact (IH q Hq p p1 H1).
Qed.
Print Assumptions C59_recognised_kept.

(** ByteLevel without add_prefix_space keeps recognised pieces in place with their tokens and offsets but re-encodes their text ... *)
Theorem C59_byte_level_remaps : forall E rx p p', pre_tokenize E (TByteLevel false rx) p = Ok p' ->
  Forall2 (fun s s' => sp_off s' = sp_off s /\ sp_tokens s' = sp_tokens s /\ byte_level_text E (sp_text s) = Ok (sp_text s'))
    (filter (fun s => negb (is_nil (sp_tokens s))) (pt_splits p)) (filter (fun s => negb (is_nil (sp_tokens s))) (pt_splits p')).
Proof.
  intros E rx p p' H. cbn [pre_tokenize] in H. unfold byte_level_pre_tokenize in H. cbn [bind] in H. unfold pt_split in H.
  apply bind_ok in H as (p1 & H1 & H). apply bind_ok in H1 as (l1 & H1 & E1). injection E1 as <-. apply bind_ok in H as (l2 & H2 & E2). injection E2 as <-. cbn [pt_splits] in *.
  rewrite <- (split_all_recognised _ _ _ _ H1). apply mapM_ok in H2. clear - H2.
  induction H2 as [|s s' l1 l2 Hs _ IH]; [constructor|]. apply bind_ok in Hs as (t & Ht & Hs). injection Hs as <-. cbn [filter sp_tokens].
  destruct (is_nil (sp_tokens s)); cbn [negb]; [exact IH|]. constructor; [|exact IH]. cbn. auto.
Qed.
Print Assumptions C59_byte_level_remaps.

(** Any pre-tokenizer without add_prefix_space, ByteLevel included: recognised pieces are never split, dropped, moved, reordered or renamed; only their text may be re-encoded. *)
Fixpoint no_prefix (t : pre_tokenizer) : Prop :=
  match t with
  | TByteLevel aps _ => aps = false
  | TSequence l => (fix go l := match l with [] => True | q :: r => no_prefix q /\ go r end) l
  | _ => True
  end.
Definition recognised_as (l : list split) : list ((nat * nat) * list token) :=
  map (fun s => (sp_off s, sp_tokens s)) (filter (fun s => negb (is_nil (sp_tokens s))) l).
Theorem C59_recognised_stay : forall E t, no_prefix t -> forall p p', pre_tokenize E t p = Ok p' -> recognised_as (pt_splits p') = recognised_as (pt_splits p).
Proof.
  intros E. fix IH 1. intros [|pat b inv|aps rx|l] Ht p p' H.
  - unfold recognised_as. rewrite (C59_recognised_kept E TBert I p p' H). reflexivity.
  - unfold recognised_as. rewrite (C59_recognised_kept E (TSplit pat b inv) I p p' H). reflexivity.
  - cbn [no_prefix] in Ht. subst aps. pose proof (C59_byte_level_remaps E rx p p' H) as HF. unfold recognised_as. clear -HF. induction HF as [|s s' l l' (H1 & H2 & _) _ IHl]; [reflexivity|]. cbn [map]. rewrite H1, H2, IHl. reflexivity.
  - cbn [pre_tokenize] in H. cbn [no_prefix] in Ht. revert p H. induction l as [|q r IHr]; intros p H; [injection H as <-; reflexivity|].
    destruct Ht as [Hq Hr]. apply bind_ok in H as (p1 & H1 & H). rewrite (IHr Hr p1 H). exact (IH q Hq p p1 H1).
Qed.
Print Assumptions C59_recognised_stay.
Example C59_case : no_prefix (TSequence [TByteLevel false true; TBert]) /\
  exists p', pre_tokenize test_env (TSequence [TByteLevel false true; TBert]) (mkPt (new_nstring (str "[X]a b")) [mkSplit (str "[X]") (0, 3) [mkTok 1 (str "[X]") (0, 3)]; mkSplit (str "a b") (3, 6) []]) = Ok p' /\
  recognised_as (pt_splits p') = [((0, 3), [mkTok 1 (str "[X]") (0, 3)])].
Proof. split; [cbn; auto|]. eexists. split; vm_compute; reflexivity. Qed.


(** ** C60 *)
(** what one byte of a piece becomes *)
Definition byte_ok (E : env) (b : N) : bool := negb (e_char_signed E && (128 <=? b)%N).
Definition remapped (t : bytes) : bytes := flat_map (fun b => utf8_enc (gpt2_cp b)) t.

Lemma byte_char_at_spec E b : (b < 256)%N -> byte_char_at E b = if byte_ok E b then Ok (utf8_enc (gpt2_cp b)) else Throw OutOfRange.
Proof.
  intros H. unfold byte_char_at, byte_ok. destruct (e_char_signed E && (128 <=? b)%N) eqn:Es; cbn [negb].
  - replace (nfind (b + 65280) bytes_char) with (@None bytes); [reflexivity|]. symmetry.
    assert (G : forall m : list (N * bytes), (forall k, In k (map fst m) -> (k < 256)%N) -> nfind (b + 65280)%N m = None).
    { induction m as [|[k v] m IH]; intros Hm; [reflexivity|]. cbn [nfind]. destruct (N.eqb_spec (b + 65280) k) as [Hk|Hk].
      - specialize (Hm k (or_introl eq_refl)). lia.
      - apply IH. intros k' Hk'. apply Hm. right. exact Hk'. }
    apply G. intros k Hk.
    assert (HA : forallb (fun k => (k <? 256)%N) (map fst bytes_char) = true) by (vm_compute; reflexivity).
    rewrite forallb_forall in HA. specialize (HA k Hk). lia.
  - rewrite bytes_char_spec by exact H. reflexivity.
Qed.

Lemma byte_level_text_spec E t : Forall (fun b => (b < 256)%N) t -> byte_level_text E t = if forallb (byte_ok E) t then Ok (remapped t) else Throw OutOfRange.
Proof.
  unfold byte_level_text. induction 1 as [|b t Hb _ IH]; [reflexivity|]. cbn [mapM forallb remapped flat_map]. rewrite byte_char_at_spec by exact Hb.
  destruct (byte_ok E b); cbn [andb bind]; [|reflexivity]. fold (remapped t). destruct (mapM (byte_char_at E) t) as [l| | |]; cbn [bind] in IH |- *; destruct (forallb (byte_ok E) t); try discriminate IH.
  - injection IH as <-. reflexivity.
  - injection IH as ->. reflexivity.
Qed.

Lemma remap_all E l : Forall (fun b => (b < 256)%N) (concat (map sp_text l)) ->
  mapM (fun s => t <- byte_level_text E (sp_text s) ;; Ok (mkSplit t (sp_off s) (sp_tokens s))) l =
  if forallb (byte_ok E) (concat (map sp_text l)) then Ok (map (fun s => mkSplit (remapped (sp_text s)) (sp_off s) (sp_tokens s)) l) else Throw OutOfRange.
Proof.
  induction l as [|s l IH]; intros H; [reflexivity|]. cbn [map concat mapM] in *. apply Forall_app in H as [H1 H2]. rewrite byte_level_text_spec by exact H1. rewrite forallb_app.
  destruct (forallb (byte_ok E) (sp_text s)); cbn [andb bind]; [|reflexivity]. rewrite IH by exact H2. destruct (forallb (byte_ok E) (concat (map sp_text l))); reflexivity.
Qed.

Lemma utf8_enc_byte c : (c <= 0x10FFFF)%N -> Forall (fun b => (b < 256)%N) (utf8_enc c).
Proof.
  intros H. unfold utf8_enc. destruct (N.ltb_spec c 128); [|destruct (N.ltb_spec c 2048); [|destruct (N.ltb_spec c 65536)]]; repeat constructor.
  - lia.
  - assert (c / 64 < 32)%N by (apply N.div_lt_upper_bound; lia). lia.
  - pose proof (N.mod_lt c 64). lia.
  - assert (c / 4096 < 16)%N by (apply N.div_lt_upper_bound; lia). lia.
  - pose proof (N.mod_lt (c / 64) 64). lia.
  - pose proof (N.mod_lt c 64). lia.
  - assert (c / 262144 < 5)%N by (apply N.div_lt_upper_bound; lia). lia.
  - pose proof (N.mod_lt (c / 4096) 64). lia.
  - pose proof (N.mod_lt (c / 64) 64). lia.
  - pose proof (N.mod_lt c 64). lia.
Qed.
Lemma utf8_encs_bytes cs : forallb valid_cp cs = true -> Forall (fun b => (b < 256)%N) (utf8_encs cs).
Proof.
  induction cs as [|c cs IH]; intros H; [constructor|]. cbn [forallb] in H. apply andb_prop in H as [Hc H]. cbn [utf8_encs flat_map]. apply Forall_app. split; [|apply IH; exact H].
  apply valid_cp_spec in Hc. apply utf8_enc_byte. lia.
Qed.
Lemma utf8_enc_high c : (128 <= c)%N -> exists b, In b (utf8_enc c) /\ (128 <= b)%N.
Proof.
  intros H. unfold utf8_enc. replace (c <? 128)%N with false by lia. destruct (c <? 2048)%N; [|destruct (c <? 65536)%N]; eexists; (split; [left; reflexivity | lia]).
Qed.
Lemma bytes_ok_iff E cs : forallb (byte_ok E) (utf8_encs cs) = true <-> (e_char_signed E = false \/ ascii cs).
Proof.
  unfold byte_ok. destruct (e_char_signed E); cbn [andb].
  - split.
    + intros H. right. rewrite forallb_forall in H. apply Forall_forall. intros c Hc. destruct (N.lt_ge_cases c 128) as [Hlt|Hge]; [exact Hlt|].
      destruct (utf8_enc_high c Hge) as (b & Hb & Hb'). assert (In b (utf8_encs cs)) by (apply in_flat_map; exists c; auto). specialize (H b H0). lia.
    + intros [H|H]; [discriminate|]. rewrite ascii_utf8 by exact H. apply forallb_forall. intros b Hb. specialize (proj1 (Forall_forall _ _) H b Hb). intros Hlt. cbn beta in Hlt. lia.
  - split; [left; reflexivity|]. intros _. apply forallb_forall. reflexivity.
Qed.

(** ... which changes it, so the property fails for ByteLevel. *)
Theorem C59_byte_level_refuted : forall E rx ns, exists s s', sp_tokens s <> [] /\
  pre_tokenize E (TByteLevel false rx) (mkPt ns [s]) = Ok (mkPt ns [s']) /\ sp_text s' <> sp_text s.
Proof.
  intros E rx ns. exists (mkSplit (str "[ A]") (0, 4) [mkTok 7 (str "[ A]") (0, 4)]). eexists. split; [discriminate|]. split.
  - cbn [pre_tokenize]. unfold byte_level_pre_tokenize, pt_split. cbn [bind pt_splits split_all is_nil sp_tokens pt_norm app mapM]. rewrite byte_level_text_spec by repeat constructor.
    cbn [sp_text]. change (str "[ A]") with (utf8_encs (str "[ A]")) at 1. rewrite (proj2 (bytes_ok_iff E (str "[ A]"))) by (right; repeat constructor). reflexivity.
  - discriminate.
Qed.
Print Assumptions C59_byte_level_refuted.

Lemma isolated_pieces fn ns cs l : forallb valid_cp cs = true -> fn (flat_map utf16_enc cs) = Ok l -> chained 0 (units cs) (map fst l) ->
  Forall (fun m => char_boundary (flat_map utf16_enc cs) (snd (fst m))) l -> forall k,
  exists pieces, pt_split fn ISOLATED (mkPt ns [mkSplit (utf8_encs cs) (0, k) []]) = Ok (mkPt ns pieces) /\
    map sp_off pieces = map fst l /\ concat (map sp_text pieces) = utf8_encs cs /\ Forall (fun p => sp_tokens p = []) pieces.
Proof.
  intros Hv Hf Hc Hb k. unfold pt_split. cbn [pt_splits pt_norm split_all sp_tokens is_nil]. unfold split_normalized. cbn [sp_text sp_off fst]. rewrite from_utf8_encs by exact Hv. rewrite Hf. cbn [bind].
  rewrite app_nil_r. eexists. split; [reflexivity|]. rewrite filter_removed_isolated, !map_map. split; [|split].
  - apply map_ext. intros [[a z] f]. cbn [fst sp_off]. rewrite !Nat.add_0_r. reflexivity.
  - set (u := flat_map utf16_enc cs) in *.
    pose proof (chained_text u (map fst l) 0 Hc (Nat.le_0_l _)) as HT. rewrite map_map in HT.
    assert (HB : Forall (fun s : nat * nat => char_boundary u (snd s)) (map fst l)) by (apply Forall_map; exact Hb). specialize (HT HB).
    unfold slice in HT at 2. rewrite Nat.sub_0_r in HT. cbn [skipn] in HT. rewrite firstn_all in HT. unfold u in HT at 2. rewrite to_utf8_encs in HT by exact Hv. rewrite <- HT. f_equal.
    apply map_ext. intros [[a z] f]. reflexivity.
  - apply Forall_map. apply Forall_forall. intros [[a z] f] _. reflexivity.
Qed.

Lemma end_boundary u : char_boundary u (length u).
Proof. intros q h t _ _ Ht. assert (nth_error u (length u) = None) by (apply nth_error_None; lia). congruence. Qed.

Lemma gaps_boundary u l : Forall (fun m => char_boundary u (fst m) /\ char_boundary u (snd m)) l -> forall c, Forall (fun m => char_boundary u (snd (fst m))) (with_gaps c (length u) l).
Proof.
  induction 1 as [|m l [H1 H2] _ IH]; intros c; cbn [with_gaps].
  - destruct (c <? length u); constructor; [apply end_boundary | constructor].
  - destruct (c =? fst m); cbn [app]; [|constructor; [exact H1|]]; (constructor; [exact H2 | apply IH]).
Qed.

Lemma byte_level_split E (rx : bool) ns cs k : forallb valid_cp cs = true -> exists pieces,
  pt_split (fun u => if rx then find_matches E byte_level_pattern u else Ok [((0, length u), false)]) ISOLATED (mkPt ns [mkSplit (utf8_encs cs) (0, k) []]) = Ok (mkPt ns pieces) /\
  chained 0 (units cs) (map sp_off pieces) /\ concat (map sp_text pieces) = utf8_encs cs /\ Forall (fun p => sp_tokens p = []) pieces /\
  (rx = false \/ ~ In 39%N cs /\ cs <> [] -> map sp_off pieces = [(0, units cs)]).
Proof.
  intros Hv. destruct rx.
  - destruct (fixed_patterns_ok E byte_level_pattern (utf8_encs cs)) as (l & Hl & Ho & Hb); [cbn; tauto|]. rewrite from_utf8_encs in Hl, Ho, Hb by exact Hv.
    destruct (isolated_pieces (find_matches E byte_level_pattern) ns cs (with_gaps 0 (units cs) l) Hv) with (k := k) as (pieces & H1 & H2 & H3 & H4).
    + unfold find_matches. rewrite Hl. reflexivity.
    + apply with_gaps_chained. exact Ho.
    + apply gaps_boundary. exact Hb.
    + exists pieces. split; [exact H1|]. rewrite H2. split; [apply with_gaps_chained; exact Ho|]. split; [exact H3|]. split; [exact H4|]. intros [Hf|[Hin Hne]]; [discriminate|].
      assert (l = []) as ->.
      { unfold regex_matches in Hl. change (leqb byte_level_pattern pat_space) with false in Hl. change (leqb byte_level_pattern pat_punct) with false in Hl. change (leqb byte_level_pattern byte_level_pattern) with true in Hl. cbn iota in Hl.
        assert (G : forall cs pos, forallb valid_cp cs = true -> ~ In 39%N cs -> apos_matches pos (flat_map utf16_enc cs) = []).
        { clear. induction cs as [|c cs IH]; intros pos Hv Hin; [reflexivity|]. cbn [forallb] in Hv. apply andb_prop in Hv as [Hc Hv]. cbn [flat_map]. unfold utf16_enc.
          assert (Hc' : c <> 39%N) by (intros ->; apply Hin; left; reflexivity). assert (Hin' : ~ In 39%N cs) by (intros C; apply Hin; right; exact C).
          destruct (c <? 65536)%N eqn:Ec; cbn [app apos_matches].
          - replace (c =? 39)%N with false by lia. apply IH; assumption.
          - match goal with |- (if (?x =? 39)%N then _ else if (?y =? 39)%N then _ else _) = _ => replace (x =? 39)%N with false by lia; replace (y =? 39)%N with false by lia end. apply IH; assumption. }
        rewrite G in Hl by assumption. congruence. }
      cbn [with_gaps map]. destruct (Nat.ltb_spec 0 (units cs)) as [H0|H0]; [reflexivity|]. exfalso. apply Hne. apply units_0. lia.
  - destruct (isolated_pieces (fun u => Ok [((0, length u), false)]) ns cs [((0, units cs), false)] Hv) with (k := k) as (pieces & H1 & H2 & H3 & H4).
    + reflexivity.
    + cbn. lia.
    + constructor; [apply end_boundary | constructor].
    + exists pieces. split; [exact H1|]. rewrite H2. split; [cbn; lia|]. split; [exact H3|]. split; [exact H4|]. reflexivity.
Qed.

(** ByteLevel pre-tokenization of a whole text. On a platform with unsigned char, or on ASCII text, it succeeds; the offsets tile the
    text and each byte of each piece is written in the GPT-2 byte alphabet. *)
Theorem C60_byte_level : forall E rx cs, forallb valid_cp cs = true -> e_char_signed E = false \/ ascii cs ->
  exists p0 ts p, new_pretok (new_nstring cs) = Ok p0 /\ pre_tokenize E (TByteLevel false rx) p0 = Ok p /\
  concat ts = utf8_encs cs /\ map sp_text (pt_splits p) = map (flat_map (fun b => utf8_enc (gpt2_cp b))) ts /\
  chained 0 (units cs) (map sp_off (pt_splits p)) /\ Forall (fun s => sp_tokens s = []) (pt_splits p) /\ pt_norm p = new_nstring cs.
Proof.
  intros E rx cs Hv Hs. destruct (fresh_packed cs) as [_ Ht]. unfold new_pretok. rewrite Ht. unfold convert_to_string. rewrite Hv. cbn [bind].
  destruct (byte_level_split E rx (new_nstring cs) cs (length cs) Hv) as (pieces & H1 & H2 & H3 & H4 & _).
  eexists. exists (map sp_text pieces). eexists. split; [reflexivity|]. split; [|split; [|split; [|split; [|split]]]].
  - cbn [pre_tokenize]. unfold byte_level_pre_tokenize. cbn [bind]. rewrite H1. cbn [bind pt_splits]. rewrite remap_all by (rewrite H3; apply utf8_encs_bytes; exact Hv). rewrite H3, (proj2 (bytes_ok_iff E cs) Hs). reflexivity.
  - exact H3.
  - cbn [pt_splits]. rewrite !map_map. reflexivity.
  - cbn [pt_splits]. rewrite map_map. exact H2.
  - cbn [pt_splits]. apply Forall_map. exact H4.
  - reflexivity.
Qed.
Print Assumptions C60_byte_level.

(** Everywhere else it throws: with signed char (x86) every text with a non-ASCII character is rejected with std::out_of_range. *)
Theorem C60_byte_level_refuted : forall E rx cs, forallb valid_cp cs = true -> e_char_signed E = true -> ~ ascii cs ->
  exists p0, new_pretok (new_nstring cs) = Ok p0 /\ pre_tokenize E (TByteLevel false rx) p0 = Throw OutOfRange.
Proof.
  intros E rx cs Hv Hs Ha. destruct (fresh_packed cs) as [_ Ht]. unfold new_pretok. rewrite Ht. unfold convert_to_string. rewrite Hv. cbn [bind].
  destruct (byte_level_split E rx (new_nstring cs) cs (length cs) Hv) as (pieces & H1 & H2 & H3 & H4 & _).
  eexists. split; [reflexivity|]. cbn [pre_tokenize]. unfold byte_level_pre_tokenize. cbn [bind]. rewrite H1. cbn [bind pt_splits]. rewrite remap_all by (rewrite H3; apply utf8_encs_bytes; exact Hv). rewrite H3.
  destruct (forallb (byte_ok E) (utf8_encs cs)) eqn:Eb; [|reflexivity]. apply bytes_ok_iff in Eb as [C|C]; [congruence | contradiction].
Qed.
Print Assumptions C60_byte_level_refuted.
Example C60_case : (exists p0 p, new_pretok (new_nstring (str "a b")) = Ok p0 /\ pre_tokenize test_env (TByteLevel false true) p0 = Ok p /\
    map sp_text (pt_splits p) = [[97; 0xC4; 0xA0; 98]%N]) /\
  (exists p0, new_pretok (new_nstring [0xE9%N]) = Ok p0 /\ pre_tokenize test_env (TByteLevel false true) p0 = Throw OutOfRange).
Proof. split; [eexists; eexists | eexists]; (split; [vm_compute; reflexivity|]); [split|]; vm_compute; reflexivity. Qed.

(** ** C61 *)
(** What use_regex really does: it cuts the text at apostrophes, and nowhere else. *)
Fixpoint apos_iso (pre cur cs : wstr) : list (wstr * wstr) :=
  match cs with
  | [] => flush pre cur
  | c :: r => if (c =? 39)%N then
                match r with
                | y :: r' => if (y =? 115)%N then flush pre cur ++ (pre ++ cur, [39; 115]%N) :: apos_iso (pre ++ cur ++ [39; 115]%N) [] r'
                             else flush pre cur ++ (pre ++ cur, [39%N]) :: apos_iso (pre ++ cur ++ [39%N]) [] r
                | [] => flush pre cur ++ [(pre ++ cur, [39%N])]
                end
              else apos_iso pre (cur ++ [c]) r
  end.
Lemma apos_skip c cs pos : valid_cp c = true -> c <> 39%N -> apos_matches pos (utf16_enc c ++ flat_map utf16_enc cs) = apos_matches (pos + cp_width c) (flat_map utf16_enc cs).
Proof.
  intros Hc Hn. unfold utf16_enc, cp_width. destruct (c <? 65536)%N eqn:Ec; cbn [app apos_matches].
  - replace (c =? 39)%N with false by lia. reflexivity.
  - match goal with |- (if (?x =? 39)%N then _ else if (?y =? 39)%N then _ else _) = _ => replace (x =? 39)%N with false by lia; replace (y =? 39)%N with false by lia end.
    f_equal. lia.
Qed.
Lemma flat_first_s cs : forallb valid_cp cs = true -> match flat_map utf16_enc cs with y :: _ => (y =? 115)%N | [] => false end = match cs with y :: _ => (y =? 115)%N | [] => false end.
Proof.
  destruct cs as [|c cs]; intros Hv; [reflexivity|]. cbn [flat_map]. unfold utf16_enc. destruct (c <? 65536)%N eqn:Ec; cbn [app]; [reflexivity|]. lia.
Qed.
Lemma apos_spans n : forall cs, length cs <= n -> forallb valid_cp cs = true -> forall pre cur,
  map fst (with_gaps (units pre) (units (pre ++ cur ++ cs)) (apos_matches (units (pre ++ cur)) (flat_map utf16_enc cs))) = map piece_span (apos_iso pre cur cs).
Proof.
  assert (HF : forall pre cur (X : list ((nat * nat) * bool)) Y, map fst X = map piece_span Y ->
    map fst ((if units pre =? units (pre ++ cur) then [] else [((units pre, units (pre ++ cur)), false)]) ++ X) = map piece_span (flush pre cur ++ Y)).
  { intros pre cur X Y H. rewrite !map_app, <- flush_span, H. destruct (units pre =? units (pre ++ cur)); reflexivity. }
  induction n as [|n IH]; intros cs Hl Hv pre cur.
  - destruct cs; [|cbn in Hl; lia]. cbn [flat_map apos_matches with_gaps apos_iso]. rewrite app_nil_r. rewrite <- flush_span, units_app.
    destruct (Nat.ltb_spec (units pre) (units pre + units cur)), (Nat.eqb_spec (units pre) (units pre + units cur)); try lia; reflexivity.
  - destruct cs as [|c cs].
    { apply (IH [] ltac:(cbn; lia) Hv). }
    cbn [forallb] in Hv. apply andb_prop in Hv as [Hc Hv]. cbn [length] in Hl. cbn [flat_map apos_iso]. destruct (N.eqb_spec c 39) as [->|Hn].
    + change (utf16_enc 39 ++ flat_map utf16_enc cs) with (39%N :: flat_map utf16_enc cs). pose proof (flat_first_s cs Hv) as HS.
      assert (H1 : match cs with y :: _ => (y =? 115)%N | [] => false end = false -> map fst (with_gaps (units pre) (units (pre ++ cur ++ 39%N :: cs)) (apos_matches (units (pre ++ cur)) (39%N :: flat_map utf16_enc cs))) = map piece_span (flush pre cur ++ (pre ++ cur, [39%N]) :: apos_iso (pre ++ cur ++ [39%N]) [] cs)).
      { intros Hf. rewrite Hf in HS. assert (HA : apos_matches (units (pre ++ cur)) (39%N :: flat_map utf16_enc cs) = (units (pre ++ cur), units (pre ++ cur) + 1) :: apos_matches (units (pre ++ cur) + 1) (flat_map utf16_enc cs)).
        { cbn [apos_matches]. change (39 =? 39)%N with true. cbn iota. destruct (flat_map utf16_enc cs) as [|y u]; [reflexivity|]. rewrite HS. reflexivity. }
        rewrite HA. cbn [with_gaps fst snd]. apply HF. cbn [map fst]. f_equal.
        specialize (IH cs ltac:(lia) Hv (pre ++ cur ++ [39%N]) []). rewrite app_nil_r in IH. rewrite <- IH. f_equal. replace (units (pre ++ cur) + 1) with (units (pre ++ cur ++ [39%N])) by (rewrite !units_app; cbn; lia). rewrite <- !app_assoc. reflexivity. }
      destruct cs as [|y cs']; [rewrite H1 by reflexivity; reflexivity|]. destruct (N.eqb_spec y 115) as [->|Hy]; [|apply H1; reflexivity].
      clear H1 HS. cbn [forallb] in Hv. apply andb_prop in Hv as [_ Hv]. cbn [length] in Hl. cbn [flat_map]. change (39%N :: utf16_enc 115 ++ flat_map utf16_enc cs') with (39 :: 115 :: flat_map utf16_enc cs')%N. cbn [apos_matches].
      change (39 =? 39)%N with true. change (115 =? 115)%N with true. cbn iota. cbn [with_gaps fst snd]. apply HF. cbn [map fst]. f_equal.
      specialize (IH cs' ltac:(lia) Hv (pre ++ cur ++ [39; 115]%N) []). rewrite app_nil_r in IH. rewrite <- IH. f_equal. replace (units (pre ++ cur) + 2) with (units (pre ++ cur ++ [39; 115]%N)) by (rewrite !units_app; cbn; lia). rewrite <- !app_assoc. reflexivity.
    + rewrite apos_skip by assumption. specialize (IH cs ltac:(lia) Hv pre (cur ++ [c])). rewrite <- IH. replace (units (pre ++ cur) + cp_width c) with (units (pre ++ cur ++ [c])) by (rewrite !units_app, units_1; lia). rewrite <- !app_assoc. reflexivity.
Qed.
Lemma apos_inside n : forall cs, length cs <= n -> forall pre cur, Forall (inside (pre ++ cur ++ cs)) (apos_iso pre cur cs).
Proof.
  induction n as [|n IH]; intros cs Hl pre cur.
  - destruct cs; [|cbn in Hl; lia]. apply flush_inside.
  - destruct cs as [|c cs]; [apply flush_inside|]. cbn [length] in Hl. cbn [apos_iso]. destruct (N.eqb_spec c 39) as [->|Hn].
    + assert (H1 : Forall (inside (pre ++ cur ++ 39%N :: cs)) (flush pre cur ++ (pre ++ cur, [39%N]) :: apos_iso (pre ++ cur ++ [39%N]) [] cs)).
      { apply Forall_app. split; [apply flush_inside|]. constructor; [split; [discriminate|]; exists cs; cbn; rewrite <- app_assoc; reflexivity|].
        specialize (IH cs ltac:(lia) (pre ++ cur ++ [39%N]) []). rewrite <- !app_assoc in IH. exact IH. }
      destruct cs as [|y cs']; [exact H1|]. destruct (N.eqb_spec y 115) as [->|Hy]; [|exact H1].
      apply Forall_app. split; [apply flush_inside|]. constructor; [split; [discriminate|]; exists cs'; cbn; rewrite <- app_assoc; reflexivity|].
      cbn [length] in Hl. specialize (IH cs' ltac:(lia) (pre ++ cur ++ [39; 115]%N) []). rewrite <- !app_assoc in IH. exact IH.
    + specialize (IH cs ltac:(lia) pre (cur ++ [c])). rewrite <- !app_assoc in IH. exact IH.
Qed.
Lemma apos_flush pre cur r (X : list (wstr * wstr)) : ~ In 39%N cur -> (r = [] \/ exists r', r = 39%N :: r') -> apostrophe_pieces r (map snd X) -> apostrophe_pieces (cur ++ r) (map snd (flush pre cur ++ X)).
Proof. intros Hc Hr HX. destruct cur as [|c cur]; [exact HX|]. cbn [flush app map snd]. change (c :: cur ++ r) with ((c :: cur) ++ r). constructor; [discriminate | assumption..]. Qed.
Lemma apos_pieces_ok n : forall cs, length cs <= n -> forall pre cur, ~ In 39%N cur -> apostrophe_pieces (cur ++ cs) (map snd (apos_iso pre cur cs)).
Proof.
  induction n as [|n IH]; intros cs Hl pre cur Hc.
  - destruct cs; [|cbn in Hl; lia]. cbn [apos_iso]. rewrite <- (app_nil_r (flush pre cur)). apply apos_flush; [exact Hc | left; reflexivity | constructor].
  - destruct cs as [|c cs]; [exact (IH [] ltac:(cbn; lia) pre cur Hc)|]. cbn [length] in Hl. cbn [apos_iso]. destruct (N.eqb_spec c 39) as [->|Hn].
    + assert (H0 : ~ In 39%N (@nil N)) by (intros []).
      assert (H1 : (forall r', cs <> 115%N :: r') -> apostrophe_pieces (cur ++ 39%N :: cs) (map snd (flush pre cur ++ (pre ++ cur, [39%N]) :: apos_iso (pre ++ cur ++ [39%N]) [] cs))).
      { intros Hs. apply apos_flush; [exact Hc | right; eauto|]. cbn [map snd]. constructor; [exact Hs|]. apply (IH cs ltac:(lia) _ [] H0). }
      destruct cs as [|y cs']; [apply H1; discriminate|]. destruct (N.eqb_spec y 115) as [->|Hy]; [|apply H1; congruence].
      apply apos_flush; [exact Hc | right; eauto|]. cbn [map snd]. constructor. cbn [length] in Hl. apply (IH cs' ltac:(lia) _ [] H0).
    + specialize (IH cs ltac:(lia) pre (cur ++ [c])). rewrite <- !app_assoc in IH. apply IH. rewrite in_app_iff. intros [H|[H|[]]]; [exact (Hc H) | congruence].
Qed.
Lemma apos_split E s cs : sp_text s = utf8_encs cs -> forallb valid_cp cs = true ->
  split_normalized s (find_matches E byte_level_pattern) ISOLATED = Ok (map (piece_split (fst (sp_off s))) (apos_iso [] [] cs)).
Proof.
  intros Hs Hv. unfold split_normalized. rewrite Hs, from_utf8_encs by exact Hv.
  unfold find_matches, regex_matches. change (leqb byte_level_pattern pat_space) with false. change (leqb byte_level_pattern pat_punct) with false. change (leqb byte_level_pattern byte_level_pattern) with true. cbn [bind].
  pose proof (apos_spans (length cs) cs (le_n _) Hv [] []) as HW. cbn [app] in HW. change (units []) with 0 in HW. unfold units in HW.
  f_equal. rewrite filter_removed_isolated. rewrite map_map.
  transitivity (map (fun m => mkSplit (to_utf8 (usub_between (flat_map utf16_enc cs) (fst m) (snd m))) (fst m + fst (sp_off s), snd m + fst (sp_off s)) []) (map fst (with_gaps 0 (length (flat_map utf16_enc cs)) (apos_matches 0 (flat_map utf16_enc cs))))).
  { rewrite map_map. apply map_ext. intros [[a z] f]. reflexivity. }
  rewrite HW, map_map. apply map_ext_in. intros p Hp. pose proof (proj1 (Forall_forall _ _) (apos_inside (length cs) cs (le_n _) [] []) p Hp) as (_ & post & Hpost). cbn [app] in Hpost.
  unfold piece_split, piece_span. cbn [fst snd]. f_equal. rewrite Hpost. apply piece_slice. rewrite <- Hpost. exact Hv.
Qed.
Lemma apostrophe_concat cs l : apostrophe_pieces cs l -> concat l = cs.
Proof. induction 1 as [|r l _ IH|r l _ _ IH|w r l _ _ _ _ IH]; cbn [concat]; rewrite ?IH; reflexivity. Qed.
Lemma utf8_encs_concat l : utf8_encs (concat l) = concat (map utf8_encs l).
Proof. induction l as [|w l IH]; [reflexivity|]. cbn [concat map]. rewrite <- IH. unfold utf8_encs. apply flat_map_app. Qed.
Lemma chained_spans l : forall pos z offs, chained pos z offs -> map (fun o => snd o - fst o) offs = map units l -> offs = spans_from pos l.
Proof.
  induction l as [|w l IH]; intros pos z [|[a b] offs] Hc Hm; try discriminate; [reflexivity|]. cbn [chained map fst snd spans_from] in *. destruct Hc as (-> & Hab & Hc). injection Hm as H1 H2.
  replace (pos + units w) with b by lia. f_equal. eapply IH; eassumption.
Qed.

Theorem C61_apostrophes_only : forall E cs, forallb valid_cp cs = true -> e_char_signed E = false \/ ascii cs ->
  exists p0 p pieces, new_pretok (new_nstring cs) = Ok p0 /\ pre_tokenize E (TByteLevel false true) p0 = Ok p /\ apostrophe_pieces cs pieces /\
  map sp_text (pt_splits p) = map (fun w => flat_map (fun b => utf8_enc (gpt2_cp b)) (utf8_encs w)) pieces /\
  map sp_off (pt_splits p) = spans_from 0 pieces.
Proof.
  intros E cs Hv Hs. destruct (fresh_packed cs) as [_ Ht]. unfold new_pretok. rewrite Ht. unfold convert_to_string. rewrite Hv. cbn [bind].
  pose proof (apos_pieces_ok (length cs) cs (le_n _) [] [] (fun H => H)) as HP. cbn [app] in HP. pose proof (apostrophe_concat _ _ HP) as HC.
  set (X := apos_iso [] [] cs) in *.
  destruct (byte_level_split E true (new_nstring cs) cs (length cs) Hv) as (pieces & H1 & H2 & H3 & H4 & _).
  assert (Epieces : pieces = map (piece_split 0) X).
  { unfold pt_split in H1. cbn [pt_splits split_all is_nil sp_tokens] in H1. cbn iota in H1. change (fun u : ustr => find_matches E byte_level_pattern u) with (find_matches E byte_level_pattern) in H1. rewrite (apos_split E (mkSplit (utf8_encs cs) (0, length cs) []) cs eq_refl Hv) in H1. cbn [bind sp_off fst] in H1. rewrite app_nil_r in H1. injection H1 as <-. reflexivity. }
  eexists. eexists. exists (map snd X). split; [reflexivity|]. split.
  - cbn [pre_tokenize]. unfold byte_level_pre_tokenize. cbn [bind]. rewrite H1. cbn [bind pt_splits]. rewrite remap_all by (rewrite H3; apply utf8_encs_bytes; exact Hv). rewrite H3, (proj2 (bytes_ok_iff E cs) Hs). reflexivity.
  - split; [exact HP|]. cbn [pt_splits]. split.
    + rewrite !map_map. subst pieces. rewrite map_map. reflexivity.
    + rewrite map_map. cbn [sp_off]. eapply chained_spans; [exact H2|]. subst pieces. rewrite !map_map. apply map_ext. intros p. unfold piece_split, piece_span. cbn [sp_off fst snd]. lia.
Qed.
Print Assumptions C61_apostrophes_only.
Example C61_case : apostrophe_pieces (str "it's ''sold' ") [str "it"; str "'s"; str " "; str "'"; str "'s"; str "old"; str "'"; str " "].
Proof. exact (apos_pieces_ok 13 (str "it's ''sold' ") (le_n _) [] [] (fun H => H)). Qed.
Theorem C61_pieces_once : forall cs l l', apostrophe_pieces cs l -> apostrophe_pieces cs l' -> l = l'.
Proof.
  assert (HS : forall c c' r r' : wstr, c ++ r = c' ++ r' -> ~ In 39%N c -> ~ In 39%N c' -> (r = [] \/ exists x, r = 39%N :: x) -> (r' = [] \/ exists x, r' = 39%N :: x) -> c = c' /\ r = r').
  { induction c as [|x c IH]; intros [|x' c'] r r' E H1 H2 H3 H4.
    - split; [reflexivity | exact E].
    - exfalso. cbn in E. destruct H3 as [->|(y & ->)]; [discriminate|]. injection E as E _. apply H2. left. congruence.
    - exfalso. cbn in E. destruct H4 as [->|(y & ->)]; [discriminate|]. injection E as E _. apply H1. left. congruence.
    - injection E as -> E. destruct (IH c' r r' E) as [-> ->]; auto; intros H; [apply H1 | apply H2]; right; exact H. }
  intros cs l l' H. revert l'. induction H as [|r l H IH|r l Hs H IH|w r l Hn Hw Hr H IH]; intros l' H'.
  - remember (@nil N) as u eqn:Eu. destruct H' as [|r' l' H'|r' l' Hs' H'|w' r' l' Hn' Hw' Hr' H']; [reflexivity | discriminate | discriminate|]. apply app_eq_nil in Eu as [Eu _]. congruence.
  - remember (39 :: 115 :: r)%N as u eqn:Eu. destruct H' as [|r' l' H'|r' l' Hs' H'|w' r' l' Hn' Hw' Hr' H']; [discriminate | injection Eu as ->; f_equal; apply IH; exact H' | injection Eu as Eu; destruct (Hs' _ Eu)|].
    destruct w' as [|x w']; [congruence|]. injection Eu as -> _. exfalso. apply Hw'. left. reflexivity.
  - remember (39%N :: r) as u eqn:Eu. destruct H' as [|r' l' H'|r' l' Hs' H'|w' r' l' Hn' Hw' Hr' H']; [discriminate | injection Eu as Eu; destruct (Hs _ (eq_sym Eu)) | injection Eu as ->; f_equal; apply IH; exact H'|].
    destruct w' as [|x w']; [congruence|]. injection Eu as -> _. exfalso. apply Hw'. left. reflexivity.
  - remember (w ++ r) as u eqn:Eu. destruct H' as [|r' l' H'|r' l' Hs' H'|w' r' l' Hn' Hw' Hr' H'].
    + symmetry in Eu. apply app_eq_nil in Eu as [Eu _]. congruence.
    + destruct w as [|x w]; [congruence|]. injection Eu as <- _. exfalso. apply Hw. left. reflexivity.
    + destruct w as [|x w]; [congruence|]. injection Eu as <- _. exfalso. apply Hw. left. reflexivity.
    + destruct (HS _ _ _ _ Eu Hw' Hw Hr' Hr) as [-> ->]. f_equal. apply IH. exact H'.
Qed.
Print Assumptions C61_pieces_once.
(** With use_regex a non-empty text without an apostrophe is never split. *)
Theorem C61_no_apostrophe_no_split : forall E cs, forallb valid_cp cs = true -> cs <> [] -> ~ In 39%N cs -> e_char_signed E = false \/ ascii cs ->
  exists p0 p, new_pretok (new_nstring cs) = Ok p0 /\ pre_tokenize E (TByteLevel false true) p0 = Ok p /\
  pt_splits p = [mkSplit (flat_map (fun b => utf8_enc (gpt2_cp b)) (utf8_encs cs)) (0, units cs) []].
Proof.
  intros E cs Hv Hne Hin Hs. destruct (fresh_packed cs) as [_ Ht]. unfold new_pretok. rewrite Ht. unfold convert_to_string. rewrite Hv. cbn [bind].
  destruct (byte_level_split E true (new_nstring cs) cs (length cs) Hv) as (pieces & H1 & H2 & H3 & H4 & H5). specialize (H5 (or_intror (conj Hin Hne))).
  eexists. eexists. split; [reflexivity|]. split.
  - cbn [pre_tokenize]. unfold byte_level_pre_tokenize. cbn [bind]. rewrite H1. cbn [bind pt_splits]. rewrite remap_all by (rewrite H3; apply utf8_encs_bytes; exact Hv). rewrite H3, (proj2 (bytes_ok_iff E cs) Hs). reflexivity.
  - cbn [pt_splits]. destruct pieces as [|[t o k] [|]]; try discriminate. cbn in *. injection H5 as ->. inversion H4; subst. cbn in *. subst k. rewrite app_nil_r in H3. subst t. reflexivity.
Qed.
Print Assumptions C61_no_apostrophe_no_split.
(** So the GPT-2 splitting ("Hello", " world") is not what happens. *)
Theorem C61_gpt2_pattern_refuted : forall E, exists p0 p, new_pretok (new_nstring (str "Hello world")) = Ok p0 /\
  pre_tokenize E (TByteLevel false true) p0 = Ok p /\ map sp_off (pt_splits p) = [(0, 11)].
Proof.
  intros E. destruct (C61_no_apostrophe_no_split E (str "Hello world")) as (p0 & p & H1 & H2 & H3).
  - reflexivity.
  - discriminate.
  - cbn. intros H. repeat (destruct H as [H|H]; [discriminate H|]). exact H.
  - right. unfold ascii. cbn. repeat constructor.
  - exists p0, p. split; [exact H1|]. split; [exact H2|]. rewrite H3. reflexivity.
Qed.
Print Assumptions C61_gpt2_pattern_refuted.

(** ** C62 *)
(** The two behaviours that are honoured: Isolated keeps the delimiters, Removed drops them (their exact effect is C57). *)
Theorem C62_behavior_names : get_split_delimiter_behavior (str "Isolated") = ISOLATED /\ get_split_delimiter_behavior (str "Removed") = REMOVED.
Proof. split; reflexivity. Qed.
Print Assumptions C62_behavior_names.
(** Every other behaviour acts as Removed and invert is ignored. *)
Theorem C62_options_ignored_refuted : forall E pat name inv p, name <> str "Isolated" ->
  pre_tokenize E (TSplit pat (get_split_delimiter_behavior name) inv) p = pre_tokenize E (TSplit pat (get_split_delimiter_behavior (str "Removed")) false) p.
Proof. intros E pat name inv p H. unfold get_split_delimiter_behavior. apply leqb_neq in H. rewrite H. reflexivity. Qed.
Print Assumptions C62_options_ignored_refuted.
Theorem C62_invert_ignored_refuted : forall E pat b p, pre_tokenize E (TSplit pat b true) p = pre_tokenize E (TSplit pat b false) p.
Proof. reflexivity. Qed.
Print Assumptions C62_invert_ignored_refuted.
(** The delimiter is lost with MergedWithPrevious. *)
Theorem C62_delimiter_lost_refuted : forall E inv ns, e_icu_matches E (str "-") (str "a-b") = Some [(1, 2)] -> exists p,
  pre_tokenize E (TSplit (str "-") (get_split_delimiter_behavior (str "MergedWithPrevious")) inv) (mkPt ns [mkSplit (str "a-b") (0, 3) []]) = Ok p /\
  map sp_text (pt_splits p) = [str "a"; str "b"].
Proof.
  intros E inv ns H. eexists. split.
  - cbn [pre_tokenize]. unfold split_pre_tokenize, pt_split. cbn [pt_splits split_all sp_tokens is_nil]. unfold split_normalized, find_matches, regex_matches. cbn [sp_text sp_off].
    change (from_utf8 (str "a-b")) with (str "a-b"). change (leqb (str "-") pat_space) with false. change (leqb (str "-") pat_punct) with false. change (leqb (str "-") byte_level_pattern) with false. cbn iota. rewrite H. reflexivity.
  - reflexivity.
Qed.
Print Assumptions C62_delimiter_lost_refuted.

(** ** C63 *)
(** On a fresh non-empty text add_prefix_space does what it says: one space in front unless there is white space already, and every
    character keeps its position (the new space shares the first one's). *)
Theorem C63_add_prefix_space : forall E rx c cs, forallb valid_cp (c :: cs) = true -> e_char_signed E = false \/ ascii (c :: cs) ->
  exists p0 p, new_pretok (new_nstring (c :: cs)) = Ok p0 /\ pre_tokenize E (TByteLevel true rx) p0 = Ok p /\
  exists ts, map sp_text (pt_splits p) = map (flat_map (fun b => utf8_enc (gpt2_cp b))) ts /\
  concat ts = utf8_encs (if e_iswspace E c then c :: cs else 32%N :: c :: cs) /\
  ns_text (pt_norm p) = (if e_iswspace E c then c :: cs else 32%N :: c :: cs) /\
  (forall i, i < units (c :: cs) -> origin (pt_norm p) (if e_iswspace E c then i else S i) = Some (i, S i)) /\
  (e_iswspace E c = false -> origin (pt_norm p) 0 = Some (0, 1)).
Proof.
  intros E rx c cs Hv Hs. destruct (fresh_packed (c :: cs)) as [HP Ht]. pose proof (from_utf32_valid _ Hv) as Hu. unfold new_pretok. rewrite Ht. unfold convert_to_string. rewrite Hv. cbn [bind].
  destruct (e_iswspace E c) eqn:Ec.
  - destruct (byte_level_split E rx (new_nstring (c :: cs)) (c :: cs) (length (c :: cs)) Hv) as (pieces & H1 & _ & H3 & _).
    eexists. eexists. split; [reflexivity|]. split.
    + cbn [pre_tokenize]. unfold byte_level_pre_tokenize, add_prefix. cbn [pt_norm]. rewrite Ht, Ec. cbn [bind]. rewrite H1. cbn [bind pt_splits]. rewrite remap_all by (rewrite H3; apply utf8_encs_bytes; exact Hv). rewrite H3, (proj2 (bytes_ok_iff E _) Hs). reflexivity.
    + exists (map sp_text pieces). cbn [pt_splits pt_norm]. rewrite !map_map. split; [reflexivity|]. split; [exact H3|]. split; [exact Ht|]. split; [|discriminate].
      intros i Hi. apply fresh_origin. rewrite Hu. exact Hi.
  - assert (Hv' : forallb valid_cp (32%N :: c :: cs) = true) by (cbn [forallb]; cbn [forallb] in Hv; rewrite Hv; reflexivity).
    assert (Hs' : e_char_signed E = false \/ ascii (32%N :: c :: cs)) by (destruct Hs as [Hs|Hs]; [left; exact Hs | right; constructor; [lia | exact Hs]]).
    assert (HP' : Packed (set_text (new_nstring (c :: cs)) (32%N :: c :: cs)) (unit_blocks (from_utf32 (c :: cs)) (length (from_utf32 (c :: cs))) 0)) by (destruct HP; constructor; assumption).
    assert (Hlen : length (from_utf32 (c :: cs)) = S (length (from_utf32 (c :: cs)) - 1)).
    { rewrite Hu. cbn [flat_map]. rewrite app_length. unfold utf16_enc. destruct (c <? 65536)%N; cbn [length]; lia. }
    destruct (unit_blocks (from_utf32 (c :: cs)) (length (from_utf32 (c :: cs))) 0) as [|[o n] B] eqn:EB; [apply (f_equal (@length _)) in EB; rewrite unit_blocks_length in EB; rewrite EB in Hlen; cbn [length] in Hlen; lia|].
    destruct (transform_add (set_text (new_nstring (c :: cs)) (32%N :: c :: cs)) [] B o n HP' 1 (le_n _)) as (ns' & HT & Htx & HP'').  cbn [length] in HT. change (length (@nil (nat * nat * nat))) with 0 in HT.
    destruct (byte_level_split E rx ns' (32%N :: c :: cs) (length (32%N :: c :: cs)) Hv') as (pieces & H1 & _ & H3 & _).
    eexists. eexists. split; [reflexivity|]. split.
    + cbn [pre_tokenize]. unfold byte_level_pre_tokenize, add_prefix. cbn [pt_norm]. rewrite Ht, Ec. rewrite HT. cbn [bind]. unfold new_pretok. rewrite Htx. unfold convert_to_string. cbn [set_text ns_text]. rewrite Hv'. cbn [bind].
      rewrite H1. cbn [bind pt_splits]. rewrite remap_all by (rewrite H3; apply utf8_encs_bytes; exact Hv'). rewrite H3, (proj2 (bytes_ok_iff E _) Hs'). reflexivity.
    + exists (map sp_text pieces). cbn [pt_splits pt_norm]. rewrite !map_map. split; [reflexivity|]. split; [exact H3|]. split; [rewrite Htx; reflexivity|]. cbn [app] in HP''.
      assert (HO : forall i, i < units (c :: cs) -> option_map fst (nth_error ((o, n) :: B) i) = Some (i, S i)).
      { intros i Hi. rewrite <- EB. rewrite unit_blocks_nth by (rewrite Hu; exact Hi). reflexivity. }
      split.
      * intros i Hi. rewrite (packed_origin ns' _ _ HP''). cbn [nth_error]. apply HO. exact Hi.
      * intros _. rewrite (packed_origin ns' _ _ HP''). cbn [nth_error option_map fst]. apply (HO 0). rewrite units_cons. pose proof (cp_width_pos c). lia.
Qed.
Print Assumptions C63_add_prefix_space.
Example C63_case : exists p0 p, new_pretok (new_nstring (str "ab")) = Ok p0 /\ pre_tokenize test_env (TByteLevel true true) p0 = Ok p /\ ns_text (pt_norm p) = str " ab".
Proof. eexists. eexists. split; [vm_compute; reflexivity|]. split; vm_compute; reflexivity. Qed.

(** In general the pieces made so far, with everything the normalizer and the recognition of added tokens put into them, are thrown
    away and made anew from the stored text: what they were does not matter. *)
Theorem C63_pieces_forgotten_refuted : forall E rx ns c r l1 l2, ns_text ns = c :: r -> e_iswspace E c = false ->
  pre_tokenize E (TByteLevel true rx) (mkPt ns l1) = pre_tokenize E (TByteLevel true rx) (mkPt ns l2).
Proof.
  intros E rx ns c r l1 l2 H Hc. cbn [pre_tokenize]. unfold byte_level_pre_tokenize, add_prefix. cbn [pt_norm]. rewrite H, Hc. reflexivity.
Qed.
Print Assumptions C63_pieces_forgotten_refuted.
(** So a recognised token loses its recognition, and text lower-cased by the normalizer comes back in upper case. *)
Example C63_lost : exists p, pre_tokenize test_env (TByteLevel true true)
    (mkPt (new_nstring (str "[X]A")) [mkSplit (str "[X]") (0, 3) [mkTok 1 (str "[X]") (0, 3)]; mkSplit (str "a") (3, 4) []]) = Ok p /\
  map sp_tokens (pt_splits p) = [[]] /\ map sp_text (pt_splits p) = [[0xC4; 0xA0; 91; 88; 93; 65]%N].
Proof. eexists. split; [vm_compute; reflexivity|]. split; reflexivity. Qed.
Theorem C63_empty_refuted : forall E rx l ns, ns_text ns = [] -> pre_tokenize E (TByteLevel true rx) (mkPt ns l) = Throw OutOfRange.
Proof. intros E rx l ns H. cbn [pre_tokenize]. unfold byte_level_pre_tokenize, add_prefix. cbn [pt_norm]. rewrite H. reflexivity. Qed.
Print Assumptions C63_empty_refuted.
