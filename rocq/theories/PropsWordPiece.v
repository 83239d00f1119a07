(** C24, C25, C26: the WordPiece model. [greedy], [tiles], [piece_text] are in WpSpec.v. *)
From Verif Require Import Base BaseFacts Unicode UnicodeProofs Common Normalizer PreTokenizer WordPiece WpSpec WpProofs.

(** tokenize treats the pieces independently and changes nothing but their tokens. *)
Theorem C24_tokenize_total : forall w p, exists l,
  wp_tokenize w p = Ok (mkPt (pt_norm p) l) /\
  Forall2 (fun s s' => sp_text s' = sp_text s /\ sp_off s' = sp_off s /\ wp_word w (sp_text s) = Ok (sp_tokens s')) (pt_splits p) l.
Proof. exact wp_tokenize_ok. Qed.
Print Assumptions C24_tokenize_total.

(** C24. For a word that is not too long: the tokens are a greedy segmentation iff there is one, and it is unique. *)
Theorem C24_greedy : forall w t, (Z.of_nat (length (from_utf8 t)) <= wp_max w)%Z ->
  (forall ts, greedy (wp_vocab w) (wp_prefix w) (from_utf8 t) 0 ts -> wp_word w t = Ok ts) /\
  (forall ts, wp_word w t = Ok ts ->
     (exists x, greedy (wp_vocab w) (wp_prefix w) (from_utf8 t) 0 x) -> greedy (wp_vocab w) (wp_prefix w) (from_utf8 t) 0 ts).
Proof.
  intros w t Hm. destruct (wp_word_spec w t) as (r & Hr & [[H _]|[[_ Hg]|[_ [Hn _]]]]); [lia| |].
  - split.
    + intros ts Hts. rewrite Hr. f_equal. eapply greedy_fun; eassumption.
    + intros ts Hts _. congruence.
  - split; [intros ts Hts; exfalso; eapply Hn; exact Hts | intros ts _ [x Hx]; exfalso; eapply Hn; exact Hx].
Qed.
Print Assumptions C24_greedy.

(** C26. The unknown token, alone, exactly when the word is too long or has no greedy segmentation. *)
Theorem C26_unknown : forall w t,
  let u := from_utf8 t in
  ((wp_max w < Z.of_nat (length u))%Z \/ (forall x, ~ greedy (wp_vocab w) (wp_prefix w) u 0 x) ->
     exists id, wp_word w t = Ok [mkTok id (wp_unk w) (0, length u)] /\
       (forall i, sfind (wp_unk w) (wp_vocab w) = Some i -> id = i)) /\
  (~ ((wp_max w < Z.of_nat (length u))%Z \/ (forall x, ~ greedy (wp_vocab w) (wp_prefix w) u 0 x)) ->
     exists ts, wp_word w t = Ok ts /\ greedy (wp_vocab w) (wp_prefix w) u 0 ts).
Proof.
  intros w t u. destruct (wp_word_spec w t) as (r & Hr & Hcase). fold u in Hcase.
  assert (Hunk : exists id, [wp_unk_token w (length u)] = [mkTok id (wp_unk w) (0, length u)] /\
                            (forall i, sfind (wp_unk w) (wp_vocab w) = Some i -> id = i)).
  { unfold wp_unk_token. eexists; split; [reflexivity|]. intros i ->. reflexivity. }
  destruct Hunk as (id & Eid & Hid). split.
  - intros H. exists id. split; [|exact Hid]. rewrite Hr. f_equal. rewrite <- Eid.
    destruct Hcase as [[_ E]|[[Hl Hg]|[_ [_ E]]]]; [exact E | | exact E].
    destruct H as [H|H]; [lia | exfalso; eapply H; exact Hg].
  - intros H. exists r. split; [exact Hr|]. destruct Hcase as [[H1 _]|[[_ Hg]|[_ [H1 _]]]]; [tauto | exact Hg | tauto].
Qed.
Print Assumptions C26_unknown.

(** C25. The offsets tile [0, length) and each token's text is the vocabulary text of the covered units; or the result
    is the unknown token covering everything. *)
Theorem C25_tiling : forall w t ts, wp_word w t = Ok ts ->
  let u := from_utf8 t in
  (tiles 0 (length u) (map tk_off ts) /\
   Forall (fun k => tk_value k = piece_text (wp_prefix w) u (fst (tk_off k)) (snd (tk_off k) - fst (tk_off k)) /\
                    sfind (tk_value k) (wp_vocab w) = Some (tk_id k)) ts /\
   concat (map (fun p => firstn (snd p - fst p) (skipn (fst p) u)) (map tk_off ts)) = u)
  \/ (exists id, ts = [mkTok id (wp_unk w) (0, length u)]).
Proof.
  intros w t ts H u. destruct (wp_word_spec w t) as (r & Hr & Hcase). fold u in Hcase.
  rewrite H in Hr. inversion Hr; subst r. destruct Hcase as [[_ E]|[[Hl Hg]|[_ [_ E]]]].
  - right. unfold wp_unk_token in E. eexists; exact E.
  - left. destruct (greedy_tiles _ _ _ _ _ Hg) as [Ht Hf]. split; [exact Ht|]. split; [exact Hf|].
    rewrite (tiles_concat u 0 (length u)) by (try exact Ht; lia). rewrite Nat.sub_0_r. cbn [skipn]. apply firstn_all.
  - right. unfold wp_unk_token in E. eexists; exact E.
Qed.
Print Assumptions C25_tiling.

(** For an ASCII word this is plain text: the token texts, without the continuation prefix, concatenate to the word. *)
Theorem C25_tiling_ascii : forall w t ts, wp_word w t = Ok ts -> ascii t ->
  (exists texts, Forall2 (fun k x => tk_value k = (if fst (tk_off k) =? 0 then [] else wp_prefix w) ++ x) ts texts /\ concat texts = t)
  \/ (exists id, ts = [mkTok id (wp_unk w) (0, length t)]).
Proof.
  intros w t ts H Ha. destruct (C25_tiling w t ts H) as [(Ht & Hf & Hc)|[id E]].
  - rewrite (ascii_from_utf8 t Ha) in *. left.
    exists (map (fun k => firstn (snd (tk_off k) - fst (tk_off k)) (skipn (fst (tk_off k)) t)) ts). split.
    + clear - Hf Ha. induction Hf as [|k ts [Hk _] Hf IH]; constructor; [|exact IH].
      rewrite Hk. unfold piece_text. f_equal. apply ascii_to_utf8.
      unfold ascii in *. rewrite <- (firstn_skipn (fst (tk_off k)) t) in Ha. apply Forall_app in Ha as [_ Ha].
      rewrite <- (firstn_skipn (snd (tk_off k) - fst (tk_off k)) (skipn (fst (tk_off k)) t)) in Ha. apply Forall_app in Ha as [Ha _]. exact Ha.
    + rewrite map_map in Hc. exact Hc.
  - right. exists id. rewrite (ascii_from_utf8 t Ha) in E. exact E.
Qed.
Print Assumptions C25_tiling_ascii.

Definition sample_wp : wordpiece :=
  mkWp [(str "[UNK]", 0); (str "un", 1); (str "##aff", 2); (str "##able", 3); (str "una", 4); (str "##ff", 5)]%Z (str "[UNK]") 20 (str "##").
Example wordpiece_witness :
  wp_word sample_wp (str "unaffable") = Ok [mkTok 4 (str "una") (0, 3); mkTok 5 (str "##ff") (3, 5); mkTok 3 (str "##able") (5, 9)] /\
  wp_word sample_wp (str "unx") = Ok [mkTok 0 (str "[UNK]") (0, 3)] /\ ascii (str "unaffable").
Proof. split; [vm_compute; reflexivity|]. split; [vm_compute; reflexivity | repeat constructor]. Qed.
