(** C41 for the whole of extract_and_normalize. *)
From Verif Require Import Base BaseFacts Unicode UnicodeProofs Common Normalizer PreTokenizer WordPiece AddedVocab NormSpec NormProofs PreSpec PreProofs WpProofs AvSpec AvProofs ExtractProofs Env.
From Coq Require Import ZifyBool ZifyNat.

(** A piece of the text handed to the pre-tokenizer: either unrecognised and not empty, or an added token of [known] with its id. *)
Definition good_piece (known : list (bytes * Z)) (x : split) : Prop :=
  match sp_tokens x with
  | [] => fst (sp_off x) < snd (sp_off x)
  | [t] => tk_value t = sp_text x /\ tk_off t = (0, length (sp_text x)) /\ In (sp_text x, tk_id t) known
  | _ => False
  end.

Lemma good_segs trie s base : bmp s -> forallb valid_cp s = true -> Forall (good_piece trie) (map (seg_split s base) (segs_of trie s)).
Proof.
  intros Hb Hv. apply Forall_forall. intros x Hx. apply in_map_iff in Hx as (p & <- & Hp).
  destruct (plain_segs_ok (word_ids trie) s (raw_matches (word_ids trie) s (length s) 0 0) 0) as [_ H]; try apply raw_matches_ok; try lia.
  pose proof (proj1 (Forall_forall _ _) H p Hp) as Hq. cbn beta in Hq. unfold good_piece, seg_split. cbn [sp_tokens sp_off sp_text fst snd]. destruct (fst p) as [i|].
  - cbn [tk_value tk_off tk_id]. split; [reflexivity|]. split; [reflexivity|]. apply word_ids_in in Hq. rewrite <- to_utf8_encs by (apply valid_slice; exact Hv). rewrite bmp_utf16 by (apply bmp_slice; exact Hb). exact Hq.
  - lia.
Qed.
Lemma seg_spans s base segs : map sp_off (map (seg_split s base) segs) = map (fun p => (fst p + base, snd p + base)) (map snd segs).
Proof. rewrite !map_map. reflexivity. Qed.
Lemma chained_shift l : forall a b base, chained a b l -> chained (a + base) (b + base) (map (fun p => (fst p + base, snd p + base)) l).
Proof.
  induction l as [|[x y] l IH]; intros a b base H; cbn [map chained fst snd] in *; [lia|]. destruct H as (-> & H1 & H2). split; [reflexivity|]. split; [lia | apply IH; exact H2].
Qed.
Lemma chained_app' l1 : forall a b c l2, chained a b l1 -> chained b c l2 -> chained a c (l1 ++ l2).
Proof. induction l1 as [|[x y] l1 IH]; intros a b c l2 H1 H2; cbn [app chained] in *; [subst; exact H2|]. destruct H1 as (-> & H & H1). split; [reflexivity|]. split; [exact H | exact (IH _ _ _ _ H1 H2)]. Qed.

Lemma normalize_pieces E norm trie map_r known : plain_ids map_r trie -> incl trie known -> (forall w sub, run_norm E norm w = Ok sub -> bmp w -> bmp (ns_text sub)) ->
  forall l ns ending ns' m' out, Forall (good_piece known) l -> Forall (fun x => forall w, convert_from_string (sp_text x) = Ok w -> bmp w) l ->
  normalize_splits E norm trie ns map_r ending l = Ok (ns', m', out) ->
  m' = map_r /\ (exists n, chained ending n (map sp_off out)) /\ Forall (good_piece known) out /\ (norm = None -> concat (map sp_text out) = concat (map sp_text l)).
Proof.
  intros HP Hi Hn. induction l as [|x l IH]; intros ns ending ns' m' out Hg Hw H; cbn [normalize_splits] in H.
  - injection H as <- <- <-. cbn. eauto 10.
  - inversion Hg as [|? ? G1 G2]; subst. inversion Hw as [|? ? W1 W2]; subst. destruct (sp_tokens x) as [|t ts] eqn:Et.
    + destruct (convert_from_string (sp_text x)) as [w| | |] eqn:Ew; cbn [bind] in H; try discriminate. fold (run_norm E norm w) in H. destruct (run_norm E norm w) as [sub| | |] eqn:En; cbn [bind] in H; try discriminate.
      destruct (transform_range ns (ending, ending + snd (sp_off x) - fst (sp_off x)) sub) as [ns1| | |]; cbn [bind] in H; try discriminate.
      pose proof (Hn w sub En (W1 w eq_refl)) as Hb. unfold convert_to_string at 1 in H. destruct (forallb valid_cp (ns_text sub)) eqn:Hv; cbn [bind] in H; [|discriminate].
      destruct (find_plain map_r (utf8_encs (ns_text sub)) trie HP) as [Hf _]. rewrite Hf in H. cbn [bind] in H. rewrite from_utf8_encs, bmp_utf16 in H by assumption.
      rewrite (norm_splits_ok _ _ _ 0 Hv (segs_chained _ _)) in H. cbn [bind] in H.
      destruct (normalize_splits E norm trie ns1 map_r (ending + length (ns_text sub)) l) as [[[ns2 m2] rest]| | |] eqn:Er; cbn [bind] in H; try discriminate. injection H as <- <- <-.
      destruct (IH _ _ _ _ _ G2 W2 Er) as (-> & (n & Hc) & Hgo & Hcat). split; [reflexivity|]. split; [|split].
      * exists n. rewrite map_app, seg_spans. apply chained_app' with (ending + length (ns_text sub)); [|exact Hc]. rewrite (Nat.add_comm ending). apply (chained_shift _ 0). apply segs_chained.
      * apply Forall_app. split; [|exact Hgo]. eapply Forall_impl; [|apply good_segs; assumption]. intros y Hy. unfold good_piece in *. destruct (sp_tokens y) as [|t [|? ?]]; auto. intuition.
      * intros ->. cbn [run_norm] in En. injection En as <-. rewrite map_app, concat_app, Hcat by reflexivity. cbn [map concat]. f_equal.
        apply convert_from_string_iff in Ew as [Ex _]. rewrite Ex. rewrite fresh_numbered in *. cbn [ns_text numbered_ns] in *. clear - Hv. unfold bytes.
        assert (G : forall l a, a <= length w -> chained a (length w) (map snd l) -> concat (map sp_text (map (seg_split w ending) l)) = utf8_encs (skipn a w)).
        { induction l as [|[o [p q]] l IHl]; intros a Ha Hc; cbn [map snd chained concat] in *; [subst; rewrite skipn_all; reflexivity|]. destruct Hc as (-> & H1 & H2). pose proof (chained_le _ _ _ H2) as H3.
          rewrite (IHl q H3 H2). unfold seg_split. cbn [sp_text fst snd]. unfold utf8_encs. rewrite <- flat_map_app. f_equal. unfold slice. rewrite <- (firstn_skipn (q - a) (skipn a w)) at 2. f_equal. rewrite skipn_skipn'. f_equal. lia. }
        apply (G _ 0); [lia | apply segs_chained].
    + destruct (normalize_splits E norm trie ns map_r (ending + length (sp_text x)) l) as [[[ns2 m2] rest]| | |] eqn:Er; cbn [bind] in H; try discriminate. injection H as <- <- <-.
      destruct (IH _ _ _ _ _ G2 W2 Er) as (-> & (n & Hc) & Hgo & Hcat). split; [reflexivity|]. split; [exists n; cbn [map sp_off chained]; repeat split; [lia | exact Hc]|]. split.
      * constructor; [|exact Hgo]. unfold good_piece in *. cbn [sp_tokens sp_text sp_off]. rewrite Et in G1. exact G1.
      * intros E0. cbn [map sp_text concat]. rewrite Hcat by exact E0. reflexivity.
Qed.

(** Whatever the normalizer (as long as it stays within the basic plane): the pieces a text is cut into have consecutive spans, starting at 0; a piece without
    token is not empty; any other piece holds exactly one token, which is the piece's text, with the id of an added token of that text. Without normalizer the
    pieces spell the text. *)
Theorem C41_pieces : forall E av norm s m p, s <> [] -> bmp s -> (forall w sub, run_norm E norm w = Ok sub -> bmp w -> bmp (ns_text sub)) ->
  plain_ids (av_map_r av) (av_trie_raw av) -> plain_ids (av_map_r av) (av_trie_norm av) -> extract_and_normalize E av norm s = Ok (m, p) ->
  (exists n, chained 0 n (map sp_off (pt_splits p))) /\ Forall (good_piece (av_trie_raw av ++ av_trie_norm av)) (pt_splits p) /\
  (norm = None -> concat (map sp_text (pt_splits p)) = utf8_encs s).
Proof.
  intros E av norm s m p Hne Hb Hn HP1 HP2 H. unfold extract_and_normalize in H. rewrite fresh_numbered in H. unfold new_pretok in H. cbn [ns_text numbered_ns] in H. unfold convert_to_string at 1 in H.
  destruct (forallb valid_cp s) eqn:Hv; cbn [bind pt_norm pt_splits] in H; [|discriminate]. cbn [ns_text numbered_ns] in H. unfold convert_to_string at 1 in H. rewrite Hv in H. cbn [bind] in H.
  destruct (find_plain (av_map_r av) (utf8_encs s) (av_trie_raw av) HP1) as [Hf _]. rewrite Hf in H. cbn [bind] in H. rewrite from_utf8_encs, bmp_utf16 in H by assumption.
  rewrite (raw_splits_ok s _ 0 Hv (segs_chained _ _)) in H. cbn [bind] in H. pose proof (segs_chained (av_trie_raw av) s) as Hc.
  remember (map (seg_split s 0) (segs_of (av_trie_raw av) s)) as raw eqn:Hraw0.
  assert (Hr : raw <> []). { rewrite Hraw0. destruct (segs_of (av_trie_raw av) s); [cbn in Hc; destruct s; [congruence | discriminate] | discriminate]. }
  assert (Hm : forall d : list split, match raw with [] => d | _ => raw end = raw) by (destruct raw; [congruence | reflexivity]). rewrite Hm in H. clear Hm.
  destruct (normalize_splits E norm (av_trie_norm av) _ (av_map_r av) 0 raw) as [[[ns m2] out]| | |] eqn:Eo; cbn [bind] in H; try discriminate. injection H as <- <-. cbn [pt_splits].
  assert (Hg : Forall (good_piece (av_trie_raw av ++ av_trie_norm av)) raw).
  { eapply Forall_impl; [|rewrite Hraw0; apply good_segs; assumption]. intros y Hy. unfold good_piece in *. destruct (sp_tokens y) as [|t [|? ?]]; auto. rewrite in_app_iff. tauto. }
  assert (Hw : Forall (fun x => forall w, convert_from_string (sp_text x) = Ok w -> bmp w) raw).
  { apply Forall_forall. intros x Hx w Ew. rewrite Hraw0 in Hx. apply in_map_iff in Hx as (q & <- & Hq). unfold seg_split in Ew. cbn [sp_text] in Ew.
    rewrite (proj2 (convert_from_string_iff _ (slice s (fst (snd q)) (snd (snd q))))) in Ew by (split; [reflexivity | apply valid_slice; exact Hv]). injection Ew as <-. apply bmp_slice. exact Hb. }
  destruct (normalize_pieces E norm (av_trie_norm av) (av_map_r av) (av_trie_raw av ++ av_trie_norm av) HP2) with (l := raw) (ns := numbered_ns (unit_sizes s) [] s) (ending := 0) (ns' := ns) (m' := m2) (out := out) as (-> & Hco & Hgo & Hcat); auto.
  { apply incl_appr, incl_refl. }
  assert (Hraw : concat (map sp_text raw) = utf8_encs s).
  { rewrite Hraw0. assert (G : forall l a, a <= length s -> chained a (length s) (map snd l) -> concat (map sp_text (map (seg_split s 0) l)) = utf8_encs (skipn a s)).
    { induction l as [|[o [x y]] l IHl]; intros a Ha Hcl; cbn [map snd chained concat] in *; [subst; rewrite skipn_all; reflexivity|]. destruct Hcl as (-> & H1 & H2). pose proof (chained_le _ _ _ H2) as H3.
      rewrite (IHl y H3 H2). unfold seg_split. cbn [sp_text fst snd]. unfold utf8_encs. rewrite <- flat_map_app. f_equal. unfold slice. rewrite <- (firstn_skipn (y - a) (skipn a s)) at 2. f_equal. rewrite skipn_skipn'. f_equal. lia. }
    apply (G _ 0); [lia | exact Hc]. }
  destruct out as [|o out].
  - split; [|split; [exact Hg | intros _; exact Hraw]]. exists (length s). rewrite Hraw0, seg_spans. rewrite <- (Nat.add_0_r (length s)) at 1. apply (chained_shift _ 0). exact Hc.
  - split; [exact Hco|]. split; [exact Hgo|]. intros E0. rewrite <- Hraw. apply Hcat. exact E0.
Qed.
Print Assumptions C41_pieces.
Definition pieces_av : added_vocab :=
  mkAv [] [] [] [(str "[X]", 7%Z)] [(7%Z, mkAt 7 (str "[X]") false false false false true); (8%Z, mkAt 8 (str "ok") false false false true false)] [(str "ok", 8%Z)] [(str "[X]", 7%Z)].
Example C41_pieces_case : plain_ids (av_map_r pieces_av) (av_trie_raw pieces_av) /\ plain_ids (av_map_r pieces_av) (av_trie_norm pieces_av) /\
  exists m p, extract_and_normalize test_env pieces_av None (str "[X] ab okay [X]") = Ok (m, p) /\
    map sp_off (pt_splits p) = [(0, 3); (3, 7); (7, 9); (9, 12); (12, 15)] /\
    map (fun x => map tk_id (sp_tokens x)) (pt_splits p) = [[7%Z]; []; [8%Z]; []; [7%Z]].
Proof.
  split; [|split]; [repeat constructor; eexists; split; [reflexivity | repeat split]..|]. do 2 eexists. split; [vm_compute; reflexivity|]. split; reflexivity.
Qed.
