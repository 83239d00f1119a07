From Verif Require Import Base BaseFacts Unicode UnicodeProofs Common Decoder DecSpec.
From Coq Require Import ZifyBool ZifyNat ZifyN.

(** ** WordPiece *)
Lemma wp_decode_rest prefix r :
  exists r', mapM (wp_decode_one prefix false false) r = Ok r' /\ Forall2 (wp_decoded prefix) r r'.
Proof.
  induction r as [|t r [r' [H1 H2]]]; [exists []; split; [reflexivity | constructor]|].
  cbn [mapM]. unfold wp_decode_one at 1.
  destruct (is_prefix prefix t) eqn:E; cbn [bind]; rewrite H1; cbn [bind]; eexists; (split; [reflexivity|]); constructor; auto.
  - apply is_prefix_spec in E as [s ->]. rewrite skipn_app, skipn_all, Nat.sub_diag. constructor.
  - constructor. intros s ->. assert (is_prefix prefix (prefix ++ s) = true) by (apply is_prefix_spec; eauto). congruence.
Qed.

Theorem wp_decode_spec prefix t r :
  exists r', decode_chain (DWordPiece prefix false) (t :: r) = Ok (t :: r') /\ Forall2 (wp_decoded prefix) r r'.
Proof.
  destruct (wp_decode_rest prefix r) as (r' & H1 & H2). exists r'. split; [|exact H2].
  cbn [decode_chain wp_decode]. unfold wp_decode_one at 1. cbn [bind]. rewrite H1. reflexivity.
Qed.

Lemma wp_decoded_fun prefix t a b : wp_decoded prefix t a -> wp_decoded prefix t b -> a = b.
Proof.
  intros Ha; destruct Ha as [s|t Hn]; intros Hb; inversion Hb as [s' Hs'|t' Hn']; subst.
  - apply app_inv_head in Hs'. auto.
  - exfalso. eapply Hn'; reflexivity.
  - exfalso. eapply Hn; reflexivity.
  - reflexivity.
Qed.

(** ** find / replace *)
Lemma find_sub_some p s i : find_sub p s = Some i -> exists a b, s = a ++ p ++ b /\ length a = i /\
  (forall j, occurs_at p s j -> i <= j).
Proof.
  revert i; induction s as [|x s IH]; intros i H; cbn [find_sub] in H.
  - destruct (is_prefix p []) eqn:E; [|discriminate]. inversion H; subst.
    apply is_prefix_spec in E as [r ->]. exists [], r. repeat split. intros; lia.
  - destruct (is_prefix p (x :: s)) eqn:E.
    + inversion H; subst. apply is_prefix_spec in E as [r Hr]. exists [], r. repeat split; [exact Hr | intros; lia].
    + destruct (find_sub p s) as [k|] eqn:E2; [|discriminate]. inversion H; subst.
      destruct (IH k eq_refl) as (a & b & -> & Hl & Hmin). exists (x :: a), b. repeat split; [cbn; lia|].
      intros j (p' & q & Hs & Hj). destruct p' as [|y p'].
      * exfalso. cbn [app] in Hs. assert (is_prefix p (x :: a ++ p ++ b) = true) by (apply is_prefix_spec; exists q; exact Hs). congruence.
      * cbn [app] in Hs. inversion Hs; subst. cbn [length] in *. specialize (Hmin (length p')). 
        assert (occurs_at p (a ++ p ++ b) (length p')) by (exists p', q; split; [assumption | reflexivity]). specialize (Hmin H0). lia.
Qed.

Lemma find_sub_none p s : find_sub p s = None -> forall i, ~ occurs_at p s i.
Proof.
  induction s as [|x s IH]; intros H i (a & b & Hs & Hl); cbn [find_sub] in H.
  - destruct (is_prefix p []) eqn:E; [discriminate|].
    symmetry in Hs. apply app_eq_nil in Hs as [-> Hs]. apply app_eq_nil in Hs as [-> ->]. discriminate.
  - destruct (is_prefix p (x :: s)) eqn:E; [discriminate|]. destruct (find_sub p s) eqn:E2; [discriminate|].
    destruct a as [|y a].
    + assert (is_prefix p (x :: s) = true) by (apply is_prefix_spec; exists b; exact Hs). congruence.
    + cbn [app] in Hs. inversion Hs; subst. eapply (IH eq_refl). exists a, b. split; reflexivity.
Qed.

Lemma skipn_app_len {A} (a b : list A) : skipn (length a) (a ++ b) = b.
Proof. rewrite skipn_app, skipn_all, Nat.sub_diag. reflexivity. Qed.
Lemma firstn_app_len {A} (a b : list A) : firstn (length a) (a ++ b) = a.
Proof. rewrite firstn_app, firstn_all, Nat.sub_diag. cbn. apply app_nil_r. Qed.

Lemma replace_loop_spec from to fuel done rest :
  from <> [] -> length rest < fuel ->
  exists r, replace_loop fuel (done ++ rest) from to (length done) = Ok (done ++ r) /\ replaced from to rest r.
Proof.
  intros Hne; revert done rest; induction fuel as [|f IH]; intros done rest Hf; [lia|].
  cbn [replace_loop]. unfold find_from. replace (length done <=? length (done ++ rest)) with true
    by (symmetry; apply Nat.leb_le; rewrite app_length; lia).
  rewrite skipn_app_len. destruct (find_sub from rest) as [i|] eqn:E.
  - destruct (find_sub_some _ _ _ E) as (a & b & -> & Hl & Hmin). subst i.
    assert (E1 : firstn (length done + length a) (done ++ a ++ from ++ b) = done ++ a).
    { rewrite app_assoc, <- app_length. apply firstn_app_len. }
    assert (E2 : skipn (length done + length a + length from) (done ++ a ++ from ++ b) = b).
    { rewrite !app_assoc, <- !app_length. apply skipn_app_len. }
    rewrite E1, E2. rewrite app_assoc. rewrite <- !app_length.
    destruct (IH ((done ++ a) ++ to) b) as (r & Hr & Hrep).
    { rewrite !app_length in Hf. destruct from; [congruence|]. cbn [length] in Hf. lia. }
    rewrite Hr. exists (a ++ to ++ r). split; [rewrite !app_assoc; reflexivity|].
    constructor; [exact Hmin | exact Hrep].
  - exists rest. split; [reflexivity|]. constructor. apply find_sub_none; exact E.
Qed.

Theorem replace_spec from to s : from <> [] -> exists r, replace s from to = Ok r /\ replaced from to s r.
Proof. intros H. unfold replace. apply (replace_loop_spec from to (S (length s)) [] s H). lia. Qed.

Lemma replaced_fun from to s a b : from <> [] -> replaced from to s a -> replaced from to s b -> a = b.
Proof.
  intros Hne Ha. revert b; induction Ha as [s Hn|pre post post' Hmin Hrec IH]; intros b Hb.
  - inversion Hb; subst; [reflexivity|]. exfalso. eapply Hn. exists pre, post. split; reflexivity.
  - inversion Hb as [s Hn Hs|pre2 post2 post2' Hmin2 Hrec2 Hs]; subst.
    + exfalso. eapply Hn. exists pre, post. split; reflexivity.
    + assert (Hlen : length pre = length pre2).
      { apply Nat.le_antisymm.
        - apply Hmin. exists pre2, post2. split; [symmetry; exact Hs | reflexivity].
        - apply Hmin2. exists pre, post. split; [exact Hs | reflexivity]. }
      assert (pre = pre2) by (apply (f_equal (firstn (length pre))) in Hs; rewrite firstn_app_len, Hlen, firstn_app_len in Hs; auto).
      subst pre2. apply app_inv_head in Hs. apply app_inv_head in Hs. subst post2.
      do 2 f_equal. apply IH. exact Hrec2.
Qed.

Theorem cleanup_spec s : exists r, cleanup_token s = Ok r /\ replaced_all documented_cleanup s r.
Proof.
  unfold cleanup_token. change cleanup_rules with documented_cleanup.
  assert (H : Forall (fun r => fst r <> []) documented_cleanup) by (repeat constructor; discriminate).
  revert s; induction H as [|[from to] rules Hne Hr IH]; intros s; cbn [foldM].
  - exists s. split; [reflexivity | constructor].
  - cbn [fst snd] in *. destruct (replace_spec from to s Hne) as (s' & -> & Hs'). cbn [bind].
    destruct (IH s') as (r & Hr' & Hra). exists r. split; [exact Hr' | econstructor; eassumption].
Qed.

Lemma replaced_all_fun rules s a b : Forall (fun r => fst r <> []) rules -> replaced_all rules s a -> replaced_all rules s b -> a = b.
Proof.
  intros H Ha; revert b; induction Ha as [s|from to rules s s' s'' H1 H2 IH]; intros b Hb; inversion Hb; subst; [reflexivity|].
  inversion H; subst. assert (s' = s'0) by (eapply replaced_fun; eassumption). subst. auto.
Qed.

(** whole WordPiece decoding with clean-up never fails *)
Lemma wp_cleanup_total prefix tokens : exists r, decode_chain (DWordPiece prefix true) tokens = Ok r /\ length r = length tokens.
Proof.
  cbn [decode_chain]. destruct tokens as [|t r]; [exists []; split; reflexivity|]. cbn [wp_decode].
  unfold wp_decode_one at 1. destruct (cleanup_spec t) as (t' & -> & _). cbn [bind].
  assert (H : exists r', mapM (wp_decode_one prefix true false) r = Ok r').
  { induction r as [|x r [r' Hr]]; [exists []; reflexivity|]. cbn [mapM]. unfold wp_decode_one at 1.
    match goal with |- context [cleanup_token ?a] => destruct (cleanup_spec a) as (y & -> & _) end. cbn [bind]. rewrite Hr.
    eexists; reflexivity. }
  destruct H as [r' Hr]. rewrite Hr. exists (t' :: r'). split; [reflexivity|]. cbn. apply mapM_length in Hr. lia.
Qed.

(** ** Sequence *)
Lemma decode_seq_nil t : decode_chain (DSequence []) t = Ok t.
Proof. reflexivity. Qed.
Lemma decode_seq_cons q l t : decode_chain (DSequence (q :: l)) t = (t' <- decode_chain q t ;; decode_chain (DSequence l) t').
Proof. reflexivity. Qed.
Lemma decode_seq_fold l t : decode_chain (DSequence l) t = foldM (fun x q => decode_chain q x) t l.
Proof.
  revert t; induction l as [|q l IH]; intros t; [reflexivity|]. rewrite decode_seq_cons. cbn [foldM].
  destruct (decode_chain q t); cbn [bind]; auto.
Qed.

(** ** Byte alphabet *)
Definition all_bytes : list N := map N.of_nat (seq 0 256).
Lemma in_all_bytes b : (b < 256)%N -> In b all_bytes.
Proof. intros H. unfold all_bytes. apply in_map_iff. exists (N.to_nat b). split; [lia|]. apply in_seq. lia. Qed.

Lemma byte_sweep (f : N -> bool) : forallb f all_bytes = true -> forall b, (b < 256)%N -> f b = true.
Proof. intros H b Hb. rewrite forallb_forall in H. apply H. apply in_all_bytes; exact Hb. Qed.

Lemma bytes_char_spec b : (b < 256)%N -> nfind b bytes_char = Some (utf8_enc (gpt2_cp b)).
Proof.
  intros H. assert (Hs : forallb (fun b => match nfind b bytes_char with Some s => leqb s (utf8_enc (gpt2_cp b)) | None => false end) all_bytes = true)
    by (vm_compute; reflexivity).
  pose proof (byte_sweep _ Hs b H) as Hb. cbv beta in Hb. destruct (nfind b bytes_char) as [s|]; [|discriminate].
  apply leqb_eq in Hb. congruence.
Qed.

Lemma bytes_char_keys : map fst bytes_char = filter gpt2_printable all_bytes ++ filter (fun b => negb (gpt2_printable b)) all_bytes.
Proof. vm_compute. reflexivity. Qed.

Lemma gpt2_cp_range b : (b < 256)%N -> (0x21 <= gpt2_cp b <= 0x7E \/ 0xA1 <= gpt2_cp b <= 0x143)%N /\ gpt2_cp b <> 0xAD%N.
Proof.
  intros H. assert (Hs : forallb (fun b => let c := gpt2_cp b in
     ((0x21 <=? c) && (c <=? 0x7E) || (0xA1 <=? c) && (c <=? 0x143)) && negb (c =? 0xAD))%N all_bytes = true) by (vm_compute; reflexivity).
  pose proof (byte_sweep _ Hs b H) as Hb. cbv beta zeta in Hb. lia.
Qed.

Lemma gpt2_cp_inj a b : (a < 256)%N -> (b < 256)%N -> gpt2_cp a = gpt2_cp b -> a = b.
Proof.
  intros Ha Hb E.
  assert (Hs : forallb (fun a => forallb (fun b => implb (gpt2_cp a =? gpt2_cp b)%N (a =? b)%N) all_bytes) all_bytes = true) by (vm_compute; reflexivity).
  pose proof (byte_sweep _ Hs a Ha) as H. cbv beta in H. pose proof (byte_sweep _ H b Hb) as H'. cbv beta in H'.
  rewrite (proj2 (N.eqb_eq _ _) E) in H'. cbn [implb] in H'. apply N.eqb_eq; exact H'.
Qed.

Lemma gpt2_cp_ascii b : (0x21 <= b <= 0x7E)%N -> gpt2_cp b = b.
Proof. intros H. unfold gpt2_cp, gpt2_printable. replace ((0x21 <=? b) && (b <=? 0x7E))%N with true by lia. reflexivity. Qed.

Lemma gpt2_cp_valid b : (b < 256)%N -> valid_cp (gpt2_cp b) = true.
Proof. intros H. apply valid_cp_spec. pose proof (gpt2_cp_range b H). lia. Qed.

Lemma utf8_enc_inj a b : valid_cp a = true -> valid_cp b = true -> utf8_enc a = utf8_enc b -> a = b.
Proof.
  intros Ha Hb E. pose proof (utf8_dec_enc a [] Ha) as H1. pose proof (utf8_dec_enc b [] Hb) as H2.
  rewrite E in H1. congruence.
Qed.

(** ** ByteLevel decoder *)
Lemma byte_level_char_good b : (b < 256)%N -> (byte_level_char (gpt2_cp b) =? b)%N = decodable_byte b.
Proof.
  intros H. assert (Hs : forallb (fun b => Bool.eqb (byte_level_char (gpt2_cp b) =? b)%N (decodable_byte b)) all_bytes = true) by (vm_compute; reflexivity).
  pose proof (byte_sweep _ Hs b H) as Hb. cbv beta in Hb. apply Bool.eqb_prop; exact Hb.
Qed.

Lemma char32_at_bmp u i c : nth_error u i = Some c -> (c < 0xD800)%N -> char32_at u i = c.
Proof.
  intros H Hc. unfold char32_at. rewrite H. replace (is_lead c) with false by (unfold is_lead; lia).
  replace (is_trail c) with false by (unfold is_trail; lia). reflexivity.
Qed.

Lemma map_seq_nth {A} (f : nat -> A) (l : list A) :
  (forall i x, nth_error l i = Some x -> f i = x) -> map f (seq 0 (length l)) = l.
Proof.
  intros H. apply list_ext. intros i. rewrite nth_error_map.
  destruct (Nat.ltb_spec i (length l)) as [Hi|Hi].
  - rewrite (nth_error_nth' _ 0) by (rewrite seq_length; exact Hi). rewrite seq_nth by exact Hi. cbn.
    destruct (nth_error l i) as [x|] eqn:E; [f_equal; auto | apply nth_error_None in E; lia].
  - rewrite (proj2 (nth_error_None l i)) by exact Hi. rewrite (proj2 (nth_error_None _ i)); [reflexivity | rewrite seq_length; exact Hi].
Qed.

Lemma gpt2_text_utf16 bs : Forall (fun b => (b < 256)%N) bs ->
  from_utf8 (utf8_encs (map gpt2_cp bs)) = map gpt2_cp bs.
Proof.
  intros H. rewrite from_utf8_encs.
  - induction H as [|b bs Hb Hbs IH]; [reflexivity|]. cbn [map flat_map]. rewrite IH.
    unfold utf16_enc. pose proof (gpt2_cp_range b Hb). replace (gpt2_cp b <? 0x10000)%N with true by lia. reflexivity.
  - apply forallb_forall. intros x Hx. apply in_map_iff in Hx as (b & <- & Hb). rewrite Forall_forall in H. apply gpt2_cp_valid; auto.
Qed.

Lemma byte_level_token bs : Forall (fun b => (b < 256)%N) bs ->
  (let u := from_utf8 (utf8_encs (map gpt2_cp bs)) in map (fun i => byte_level_char (char32_at u i)) (seq 0 (length u)))
  = map (fun b => byte_level_char (gpt2_cp b)) bs.
Proof.
  intros H. cbv zeta. rewrite gpt2_text_utf16 by exact H.
  rewrite <- (map_map gpt2_cp byte_level_char). rewrite <- (map_length byte_level_char (map gpt2_cp bs)) at 1.
  apply map_seq_nth. intros i x Hx. rewrite nth_error_map in Hx. destruct (nth_error (map gpt2_cp bs) i) as [c|] eqn:E; [|discriminate].
  cbn in Hx. rewrite (char32_at_bmp _ _ c E); [congruence|].
  rewrite nth_error_map in E. destruct (nth_error bs i) as [b|] eqn:E2; [|discriminate]. cbn in E. inversion E; subst.
  rewrite Forall_forall in H. apply nth_error_In in E2. pose proof (gpt2_cp_range b (H b E2)). lia.
Qed.

Theorem byte_level_round_trip groups :
  Forall (Forall (fun b => (b < 256)%N)) groups ->
  exists out, decode_chain DByteLevel (map (fun bs => utf8_encs (map gpt2_cp bs)) groups) = Ok [out] /\
    length out = length (concat groups) /\
    (forall i b, nth_error (concat groups) i = Some b ->
       exists c, nth_error out i = Some c /\ (c = b <-> decodable_byte b = true)).
Proof.
  intros H. cbn [decode_chain]. unfold byte_level_decode.
  set (f := fun t : bytes => let u := from_utf8 t in map (fun i => byte_level_char (char32_at u i)) (seq 0 (length u))).
  assert (E : flat_map f (map (fun bs => utf8_encs (map gpt2_cp bs)) groups)
              = map (fun b => byte_level_char (gpt2_cp b)) (concat groups)).
  { induction H as [|bs groups Hb Hg IH]; [reflexivity|]. cbn [map flat_map concat]. rewrite IH, map_app. f_equal.
    apply (byte_level_token bs Hb). }
  rewrite E. eexists; split; [reflexivity|]. split; [apply map_length|].
  intros i b Hi. rewrite nth_error_map, Hi. eexists; split; [reflexivity|].
  assert (Hb : (b < 256)%N).
  { apply nth_error_In in Hi. apply in_concat in Hi as (bs & Hbs & Hin). rewrite Forall_forall in H.
    specialize (H bs Hbs). rewrite Forall_forall in H. auto. }
  pose proof (byte_level_char_good b Hb) as Hg. rewrite <- Hg. symmetry. apply N.eqb_eq.
Qed.

Theorem byte_level_round_trip_iff groups :
  Forall (Forall (fun b => (b < 256)%N)) groups ->
  (decode_chain DByteLevel (map (fun bs => utf8_encs (map gpt2_cp bs)) groups) = Ok [concat groups] <->
   Forall (fun b => decodable_byte b = true) (concat groups)).
Proof.
  intros H. destruct (byte_level_round_trip groups H) as (out & E & Hl & Hi). rewrite E. split.
  - intros Heq. inversion Heq; subst. apply Forall_forall. intros b Hb. apply In_nth_error in Hb as [i Hb].
    destruct (Hi i b Hb) as (c & Hc & Hiff). apply Hiff. congruence.
  - intros Hall. do 2 f_equal. apply list_ext. intros i. destruct (nth_error (concat groups) i) as [b|] eqn:Eb.
    + destruct (Hi i b Eb) as (c & Hc & Hiff). rewrite Hc. f_equal. apply Hiff. rewrite Forall_forall in Hall. apply Hall.
      eapply nth_error_In; exact Eb.
    + apply nth_error_None. rewrite Hl. apply nth_error_None; exact Eb.
Qed.
