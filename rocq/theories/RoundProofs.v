(** Lemmas for PropsRound.v *)
From Verif Require Import Base BaseFacts Unicode UnicodeProofs Common Utils PostProcessor Decoder Normalizer PreTokenizer WordPiece Bpe AddedVocab Tokenizer Spec
  NormSpec NormProofs PreSpec PreProofs AvSpec AvProofs ExtractProofs TzSpec TzProofs WpSpec WpProofs DecSpec DecProofs HistSpec HistProofs OffSpec OffProofs RoundSpec.
From Coq Require Import ZifyBool.

(** ** The words of a joined text *)
Lemma words_run f x : Forall (fun c => f c = false) x -> forall pre cur r, words f pre cur (x ++ r) = words f pre (cur ++ x) r.
Proof. induction 1 as [|c x Hc _ IH]; intros pre cur r; [rewrite app_nil_r; reflexivity|]. cbn [app words]. rewrite Hc, IH, <- app_assoc. reflexivity. Qed.
Lemma words_joined f ws : f 32%N = true -> Forall (fun x => x <> [] /\ Forall (fun c => f c = false) x) ws ->
  forall x pre, x <> [] -> Forall (fun c => f c = false) x -> map snd (words f pre [] (x ++ flat_map (fun y => 32%N :: y) ws)) = x :: ws.
Proof.
  intros Hsp Hws. induction Hws as [|y ws [Hy1 Hy2] Hws IH]; intros x pre Hne Hx; rewrite words_run by exact Hx; cbn [app flat_map words].
  - destruct x; [congruence | reflexivity].
  - rewrite Hsp. rewrite map_app. rewrite IH by assumption. destruct x; [congruence | reflexivity].
Qed.
Lemma isolate_run f x : Forall (fun c => f c = false) x -> forall pre cur, isolate f pre cur x = flush pre (cur ++ x).
Proof. induction 1 as [|c x Hc _ IH]; intros pre cur; [rewrite app_nil_r; reflexivity|]. cbn [isolate]. rewrite Hc, IH, <- app_assoc. reflexivity. Qed.
Lemma isolate_word sp pu x : plain_word sp pu x -> map snd (isolate pu [] [] x) = [x].
Proof.
  intros (Hne & _ & [H|(c & -> & Hc)]).
  - rewrite isolate_run by exact H. cbn [app]. destruct x; [congruence | reflexivity].
  - cbn [isolate]. rewrite Hc. reflexivity.
Qed.
Lemma bert_pieces_joined sp pu ws : sp 32%N = true -> ws <> [] -> Forall (plain_word sp pu) ws -> map snd (bert_pieces sp pu (joined ws)) = ws.
Proof.
  intros Hsp Hne Hws. unfold bert_pieces.
  assert (HW : map snd (words sp [] [] (joined ws)) = ws).
  { destruct ws as [|x ws]; [congruence|]. inversion Hws as [|? ? (H1 & H2 & _) H3]; subst. apply words_joined; [exact Hsp | | exact H1 | exact H2]. eapply Forall_impl; [|exact H3]. intros y (Y1 & Y2 & _). auto. }
  revert HW Hws. generalize (words sp [] [] (joined ws)). clear. intros l HW. rewrite <- HW. clear ws HW. intros H. induction l as [|p l IH]; [reflexivity|]. cbn [map flat_map] in *. inversion H as [|? ? Hp Hl]; subst.
  rewrite map_app, (IH Hl), map_map. pose proof (isolate_word sp pu (snd p) Hp) as HI. transitivity (map snd (isolate pu [] [] (snd p)) ++ map snd l); [reflexivity | rewrite HI; reflexivity].
Qed.

(** ** Cuts of a greedy segmentation *)
Lemma cut_replacement u a b : a < b -> b <= length u -> ~ char_boundary u b -> exists p, to_utf8 (slice u a b) = p ++ utf8_enc 0xFFFD.
Proof.
  intros Ha Hb Hn. assert (Hx : exists q h, b = S q /\ nth_error u q = Some h /\ is_lead h = true).
  { destruct b as [|q]; [lia|]. destruct (nth_error u q) as [h|] eqn:Eh; [|apply nth_error_None in Eh; lia]. exists q, h. split; [reflexivity|]. split; [exact Eh|]. destruct (is_lead h) eqn:El; [reflexivity|].
    exfalso. apply Hn. intros q' h' t' Eq Hh _ [Hl _]. injection Eq as <-. congruence. }
  destruct Hx as (q & h & -> & Hh & Hl).
  assert (Es : slice u a (S q) = slice u a q ++ [h]).
  { rewrite (slice_split u a q (S q)) by lia. f_equal. unfold slice. replace (S q - q) with 1 by lia. destruct (skipn q u) as [|x r] eqn:Er.
    - assert (length (skipn q u) = 0) by (rewrite Er; reflexivity). rewrite skipn_length in *. lia.
    - cbn [firstn]. f_equal. assert (nth_error (skipn q u) 0 = Some x) by (rewrite Er; reflexivity). rewrite nth_error_skipn, Nat.add_0_r in *. congruence. }
  rewrite Es, to_utf8_app.
  - exists (to_utf8 (slice u a q)). f_equal. unfold to_utf8. cbn [utf16_cps]. rewrite Hl. cbn [flat_map fst]. unfold utf8_of_cp. replace (is_surrogate h) with true; [reflexivity|]. unfold is_surrogate, is_lead in *. lia.
  - destruct (rev (slice u a q)); [exact I|]. unfold is_trail, is_lead in *. lia.
Qed.
Lemma bmp_boundary x p : bmp x -> forallb valid_cp x = true -> char_boundary (flat_map utf16_enc x) p.
Proof.
  intros Hb Hv. rewrite bmp_utf16 by exact Hb. intros q h t _ Hh _ [Hl _]. apply nth_error_In in Hh. pose proof (proj1 (forallb_forall _ _) Hv h Hh) as H. unfold valid_cp, is_surrogate, is_lead in *. lia.
Qed.

Lemma tiles_chained a b l : tiles a b l -> chained a b l.
Proof. induction 1; cbn; [reflexivity|]. repeat split; [lia | assumption]. Qed.
Lemma greedy_boundaries w x ts : whole_chars (wp_vocab w) x -> forallb valid_cp x = true -> greedy (wp_vocab w) (wp_prefix w) (flat_map utf16_enc x) 0 ts ->
  Forall (fun t => fst (tk_off t) < snd (tk_off t) /\ snd (tk_off t) <= length (flat_map utf16_enc x) /\ char_boundary (flat_map utf16_enc x) (snd (tk_off t))) ts.
Proof.
  intros Hw Hv Hg. destruct (greedy_tiles _ _ _ _ _ Hg) as [HT HF].
  assert (HB : Forall (fun t => fst (tk_off t) < snd (tk_off t) /\ snd (tk_off t) <= length (flat_map utf16_enc x)) ts).
  { clear - HT. revert HT. generalize 0. induction ts as [|t ts IH]; intros a HT; [constructor|]. cbn [map] in HT. destruct (tk_off t) as [y z] eqn:Eo. inversion HT as [|? m ? ? Ham Ht]; subst.
    constructor; [rewrite Eo; cbn; split; [exact Ham|]; apply tiles_le in Ht; lia | eapply IH; exact Ht]. }
  apply Forall_forall. intros t Ht. destruct (proj1 (Forall_forall _ _) HB t Ht) as [B1 B2]. split; [exact B1|]. split; [exact B2|]. destruct (proj1 (Forall_forall _ _) HF t Ht) as [F1 F2].
  destruct Hw as [Hb|Hr]; [apply bmp_boundary; assumption|].
  assert (Hdec : char_boundary (flat_map utf16_enc x) (snd (tk_off t)) \/ ~ char_boundary (flat_map utf16_enc x) (snd (tk_off t))).
  { destruct (snd (tk_off t)) as [|q]; [left; intros q h t' E; discriminate|]. destruct (nth_error (flat_map utf16_enc x) q) as [h|] eqn:Eh; [|left; intros q' h t' E; injection E as <-; congruence].
    destruct (nth_error (flat_map utf16_enc x) (S q)) as [c|] eqn:Ec; [|left; intros q' h' t' E; injection E as <-; congruence]. destruct (is_lead h && is_trail c) eqn:El.
    - right. intros Hc. apply (Hc q h c eq_refl Eh Ec). apply andb_prop in El. exact El.
    - left. intros q' h' t' E H1 H2 [H3 H4]. injection E as <-. rewrite Eh in H1. rewrite Ec in H2. injection H1 as <-. injection H2 as <-. rewrite H3, H4 in El. discriminate. }
  destruct Hdec as [H|H]; [exact H|]. exfalso. destruct (cut_replacement _ _ _ B1 B2 H) as (p & Hp). rewrite F1 in F2. unfold piece_text in F2. unfold slice in Hp. rewrite Hp in F2. apply sfind_in in F2.
  apply (Hr _ _ ((if fst (tk_off t) =? 0 then [] else wp_prefix w) ++ p) [] F2). rewrite app_nil_r, app_assoc. reflexivity.
Qed.

(** ** Decoding the tokens of one word *)
Definition dec (prefix : bytes) (t : bytes) : bytes := if is_prefix prefix t then skipn (length prefix) t else 32%N :: t.
Lemma wp_decode_dec prefix t r : decode_chain (DWordPiece prefix false) (t :: r) = Ok (t :: map (dec prefix) r).
Proof.
  cbn [decode_chain wp_decode]. unfold wp_decode_one at 1. cbn [bind]. assert (H : mapM (wp_decode_one prefix false false) r = Ok (map (dec prefix) r)); [|rewrite H; reflexivity].
  induction r as [|x r IH]; [reflexivity|]. cbn [mapM map]. unfold wp_decode_one at 1. cbn [bind]. rewrite IH. reflexivity.
Qed.
Lemma dec_cont prefix s : dec prefix (prefix ++ s) = s.
Proof. unfold dec. replace (is_prefix prefix (prefix ++ s)) with true by (symmetry; apply is_prefix_spec; eauto). rewrite skipn_app, skipn_all, Nat.sub_diag. reflexivity. Qed.
Lemma dec_word prefix s : (forall r, s <> prefix ++ r) -> dec prefix s = 32%N :: s.
Proof. intros H. unfold dec. destruct (is_prefix prefix s) eqn:E; [|reflexivity]. apply is_prefix_spec in E as (r & ->). destruct (H r eq_refl). Qed.

Lemma greedy_decode w x ts : x <> [] -> forallb valid_cp x = true -> whole_chars (wp_vocab w) x -> (forall r, utf8_encs x <> wp_prefix w ++ r) ->
  greedy (wp_vocab w) (wp_prefix w) (flat_map utf16_enc x) 0 ts -> exists v vs, map tk_value ts = v :: vs /\ v ++ concat (map (dec (wp_prefix w)) vs) = utf8_encs x /\ dec (wp_prefix w) v = 32%N :: v.
Proof.
  intros Hne Hv Hw Hp Hg. set (u := flat_map utf16_enc x) in *. pose proof (greedy_boundaries w x ts Hw Hv Hg) as HB. fold u in HB. destruct (greedy_tiles _ _ _ _ _ Hg) as [HT HF].
  assert (Hu : length u <> 0) by (intros E; apply Hne, units_0; exact E).
  assert (HC : concat (map (fun s => to_utf8 (slice u (fst s) (snd s))) (map tk_off ts)) = utf8_encs x).
  { rewrite (chained_text u (map tk_off ts) 0); [unfold slice; rewrite Nat.sub_0_r; cbn [skipn]; rewrite firstn_all; apply to_utf8_encs, Hv | apply tiles_chained, HT | lia|].
    apply Forall_map. eapply Forall_impl; [|exact HB]. cbn beta. intros t (_ & _ & H). exact H. }
  destruct ts as [|t ts]; [inversion HT; lia|]. cbn [map] in HT. destruct (tk_off t) as [y m] eqn:Eo. inversion HT as [|? ? ? ? Ham Ht]; subst. inversion HF as [|? ? [Hv1 _] HF']; subst. rewrite Eo in *. cbn [fst snd] in *.
  assert (Ev : tk_value t = to_utf8 (slice u 0 m)). { rewrite Hv1. unfold piece_text, slice. reflexivity. }
  cbn [map concat] in HC. rewrite Eo in HC. cbn [fst snd] in HC. exists (tk_value t), (map tk_value ts). split; [reflexivity|].
  assert (Er : concat (map (dec (wp_prefix w)) (map tk_value ts)) = concat (map (fun s => to_utf8 (slice u (fst s) (snd s))) (map tk_off ts))).
  { f_equal. rewrite !map_map. apply map_ext_in. intros y Hy. destruct (proj1 (Forall_forall _ _) HF' y Hy) as [Hy1 _].
    assert (Hpos : m <= fst (tk_off y)).
    { clear - Ht Hy. revert m Ht. induction ts as [|z ts IH]; intros m Ht; [destruct Hy|]. cbn [map] in Ht. destruct (tk_off z) as [z1 z2] eqn:Eo. inversion Ht as [|? m' ? ? Ham Ht']; subst. destruct Hy as [->|Hy]; [rewrite Eo; cbn; lia|]. pose proof (IH Hy _ Ht'). lia. }
    rewrite Hy1. unfold piece_text. replace (fst (tk_off y) =? 0) with false by lia. apply dec_cont. }
  split; [rewrite Ev, Er; exact HC|]. apply dec_word. intros r Hr. rewrite Ev in Hr. rewrite Hr, <- app_assoc in HC. apply (Hp _ (eq_sym HC)).
Qed.

Lemma decode_words w ws tss : Forall2 (fun x ts => exists v vs, map tk_value ts = v :: vs /\ v ++ concat (map (dec (wp_prefix w)) vs) = utf8_encs x /\ dec (wp_prefix w) v = 32%N :: v) ws tss ->
  concat (map (dec (wp_prefix w)) (flat_map (map tk_value) tss)) = utf8_encs (flat_map (fun y => 32%N :: y) ws).
Proof.
  induction 1 as [|x ts ws tss (v & vs & E1 & E2 & E3) _ IH]; [reflexivity|]. cbn [flat_map]. rewrite E1. cbn [app map concat]. rewrite map_app, concat_app, IH, E3. cbn [app]. 
  change (32%N :: x ++ flat_map (fun y => 32%N :: y) ws) with ((32%N :: x) ++ flat_map (fun y => 32%N :: y) ws). rewrite utf8_encs_app. change (utf8_encs (32%N :: x)) with (32%N :: utf8_encs x). rewrite <- E2. cbn [app]. rewrite <- app_assoc. reflexivity.
Qed.
Lemma decode_joined w ws tss : ws <> [] -> Forall2 (fun x ts => exists v vs, map tk_value ts = v :: vs /\ v ++ concat (map (dec (wp_prefix w)) vs) = utf8_encs x /\ dec (wp_prefix w) v = 32%N :: v) ws tss ->
  (out <- decode_chain (DWordPiece (wp_prefix w) false) (flat_map (map tk_value) tss) ;; Ok (concat out)) = Ok (utf8_encs (joined ws)).
Proof.
  intros Hne H. destruct H as [|x ts ws tss (v & vs & E1 & E2 & E3) H]; [congruence|]. cbn [flat_map]. rewrite E1. cbn [app]. rewrite wp_decode_dec. cbn [bind concat]. rewrite map_app, concat_app, (decode_words w ws tss H). cbn [joined]. rewrite utf8_encs_app, <- E2, <- app_assoc. reflexivity.
Qed.

Lemma into_rows_cols ns ty l : forall idx e, into_rows ns ty idx l = Ok e -> en_ids e = flat_map (fun s => map tk_id (sp_tokens s)) l /\ en_tokens e = flat_map (fun s => map tk_value (sp_tokens s)) l.
Proof.
  induction l as [|s l IH]; intros idx e H; cbn [into_rows] in H; [injection H as <-; auto|]. apply bind_ok in H as (base & _ & H). apply bind_ok in H as (rest & Hr & H). injection H as <-. destruct (IH _ _ Hr) as [I1 I2].
  unfold append_enc, split_rows. cbn [en_ids en_tokens flat_map]. rewrite I1, I2. auto.
Qed.
