From Verif Require Import Base BaseFacts Unicode Common Utils PostProcessor Spec EncFacts PostSpec.
From Coq Require Import ZifyBool ZifyNat ZifyN.
Ltac Zify.zify_post_hook ::= Z.div_mod_to_equations.

(** ** Template *)
Lemma fold_append l a : fold_left append_enc l a =
  mkEnc (en_ids a ++ flat_map en_ids l) (en_type_ids a ++ flat_map en_type_ids l) (en_tokens a ++ flat_map en_tokens l)
        (en_words a ++ flat_map en_words l) (en_offsets a ++ flat_map en_offsets l) (en_smask a ++ flat_map en_smask l)
        (en_amask a ++ flat_map en_amask l) (en_overflowing a).
Proof.
  revert a; induction l as [|x l IH]; intros a; cbn [fold_left flat_map].
  - rewrite !app_nil_r. destruct a; reflexivity.
  - rewrite IH. unfold append_enc; cbn [en_ids en_type_ids en_tokens en_words en_offsets en_smask en_amask en_overflowing].
    rewrite <- !app_assoc. reflexivity.
Qed.

Lemma template_process_concat single specials add e :
  template_process single specials add e = concat_enc (template_parts single specials add e).
Proof. unfold template_process. rewrite fold_append. reflexivity. Qed.

Lemma concat_enc_cons x l :
  concat_enc (x :: l) = mkEnc (en_ids x ++ en_ids (concat_enc l)) (en_type_ids x ++ en_type_ids (concat_enc l))
    (en_tokens x ++ en_tokens (concat_enc l)) (en_words x ++ en_words (concat_enc l)) (en_offsets x ++ en_offsets (concat_enc l))
    (en_smask x ++ en_smask (concat_enc l)) (en_amask x ++ en_amask (concat_enc l)) [].
Proof. reflexivity. Qed.

Definition same_columns (a b : encoding) : Prop :=
  en_ids a = en_ids b /\ en_type_ids a = en_type_ids b /\ en_tokens a = en_tokens b /\ en_words a = en_words b /\
  en_offsets a = en_offsets b /\ en_smask a = en_smask b /\ en_amask a = en_amask b.

Lemma concat_enc_ext x y l l' : same_columns x y -> concat_enc l = concat_enc l' -> concat_enc (x :: l) = concat_enc (y :: l').
Proof.
  intros (H1 & H2 & H3 & H4 & H5 & H6 & H7) H. rewrite !concat_enc_cons, H. congruence.
Qed.

Lemma concat_enc_skip x l : same_columns x empty_enc -> concat_enc (x :: l) = concat_enc l.
Proof. intros (H1 & H2 & H3 & H4 & H5 & H6 & H7). rewrite concat_enc_cons, H1, H2, H3, H4, H5, H6, H7. reflexivity. Qed.

Lemma latest_A_snoc l p :
  latest_A (l ++ [p]) = if leqb (pc_kind p) (str "Sequence") && leqb (pc_id p) (str "A") then Some (pc_type p) else latest_A l.
Proof.
  induction l as [|q l IH]; cbn [app latest_A]; [reflexivity|].
  rewrite IH. destruct (leqb (pc_kind p) (str "Sequence") && leqb (pc_id p) (str "A")); reflexivity.
Qed.

Lemma repeat_map {A B} (x : B) (l : list A) : repeat x (length l) = map (fun _ => x) l.
Proof. induction l; cbn; congruence. Qed.

(** the encoding as mutated by the pieces [done] *)
Definition retyped (done : list piece) (e : encoding) : encoding :=
  match latest_A done with
  | Some t => set_type_ids e (map (fun _ => t) (en_type_ids e))
  | None => e
  end.

Lemma set_type_again e t t' :
  set_type_ids (set_type_ids e (map (fun _ => t) (en_type_ids e))) (repeat t' (length (map (fun _ : Z => t) (en_type_ids e))))
  = set_type_ids e (map (fun _ => t') (en_type_ids e)).
Proof. unfold set_type_ids. cbn. rewrite map_length, repeat_map. reflexivity. Qed.

Lemma template_parts_spec specials add e rest done :
  concat_enc (template_parts rest specials add (retyped done e))
  = concat_enc (map (contribution (done ++ rest) specials add e) (seq (length done) (length rest))).
Proof.
  revert done; induction rest as [|p rest IH]; intros done; [reflexivity|].
  specialize (IH (done ++ [p])). rewrite app_length, <- app_assoc in IH. cbn [length app] in IH.
  replace (length done + 1) with (S (length done)) in IH by lia.
  cbn [length seq map]. cbn [template_parts].
  assert (Hn : nth_error (done ++ p :: rest) (length done) = Some p)
    by (rewrite nth_error_app2 by lia; rewrite Nat.sub_diag; reflexivity).
  assert (Hf : firstn (S (length done)) (done ++ p :: rest) = done ++ [p]).
  { rewrite firstn_app. replace (S (length done) - length done) with 1 by lia. rewrite firstn_all2 by lia. reflexivity. }
  unfold retyped in *. rewrite latest_A_snoc in IH.
  destruct (leqb (pc_kind p) (str "Sequence")) eqn:Ek.
  - cbn [andb] in IH. cbv zeta. destruct (leqb (pc_id p) (str "A")) eqn:Ea.
    + assert (Heq : set_type_ids (match latest_A done with Some t => set_type_ids e (map (fun _ => t) (en_type_ids e)) | None => e end)
                (repeat (pc_type p) (length (en_type_ids (match latest_A done with Some t => set_type_ids e (map (fun _ => t) (en_type_ids e)) | None => e end))))
              = set_type_ids e (map (fun _ => pc_type p) (en_type_ids e))).
      { destruct (latest_A done); [apply set_type_again | rewrite repeat_map; reflexivity]. }
      rewrite Heq. apply concat_enc_ext; [|exact IH].
      unfold contribution. rewrite Hn, Ek, Hf, latest_A_snoc, Ek, Ea. cbn [andb].
      repeat split; reflexivity.
    + apply concat_enc_ext; [|exact IH].
      unfold contribution. rewrite Hn, Ek, Hf, latest_A_snoc, Ek, Ea. cbn [andb].
      destruct (latest_A done); repeat split; reflexivity.
  - cbn [andb] in IH. destruct (leqb (pc_kind p) (str "SpecialToken")) eqn:Es.
    + destruct add.
      * apply concat_enc_ext; [|exact IH]. unfold contribution. rewrite Hn, Ek, Es. cbn [andb].
        unfold special_enc, find_special. destruct (find _ specials) as [s|]; cbn [st_ids st_tokens length repeat].
        -- rewrite !repeat_map. repeat split; reflexivity.
        -- repeat split; reflexivity.
      * rewrite IH. symmetry. apply concat_enc_skip. unfold contribution. rewrite Hn, Ek, Es. repeat split; reflexivity.
    + rewrite IH. symmetry. apply concat_enc_skip. unfold contribution. rewrite Hn, Ek, Es. repeat split; reflexivity.
Qed.

Theorem template_spec single specials add e :
  template_process single specials add e
  = concat_enc (map (contribution single specials add e) (seq 0 (length single))).
Proof. rewrite template_process_concat. apply (template_parts_spec specials add e single []). Qed.

Lemma template_no_overflow single specials add e : en_overflowing (template_process single specials add e) = [].
Proof. rewrite template_process_concat. reflexivity. Qed.

Definition is_sequence (p : piece) : bool := leqb (pc_kind p) (str "Sequence").

Lemma parts_no_sequence single specials e :
  Forall (fun p => is_sequence p = false) single -> template_parts single specials false e = [].
Proof.
  induction single as [|p l IH]; intros H; [reflexivity|]. inversion H as [|? ? Hp Hl]; subst.
  cbn [template_parts]. unfold is_sequence in Hp. rewrite Hp. destruct (leqb (pc_kind p) (str "SpecialToken")); apply IH; exact Hl.
Qed.

Theorem template_no_special before p after specials e :
  is_sequence p = true -> Forall (fun q => is_sequence q = false) (before ++ after) ->
  let r := template_process (before ++ p :: after) specials false e in
  en_ids r = en_ids e /\ en_tokens r = en_tokens e /\ en_words r = en_words e /\ en_offsets r = en_offsets e /\
  en_smask r = en_smask e /\ en_amask r = en_amask e.
Proof.
  intros Hp Hall r. subst r. rewrite template_process_concat.
  apply Forall_app in Hall as [Hb Ha].
  assert (H : exists e', template_parts (before ++ p :: after) specials false e = [e'] /\
     en_ids e' = en_ids e /\ en_tokens e' = en_tokens e /\ en_words e' = en_words e /\ en_offsets e' = en_offsets e /\
     en_smask e' = en_smask e /\ en_amask e' = en_amask e).
  { induction Hb as [|q l Hq Hl IH]; cbn [app template_parts].
    - unfold is_sequence in Hp. rewrite Hp. rewrite parts_no_sequence by exact Ha.
      eexists; split; [reflexivity|]. destruct (leqb (pc_id p) (str "A")); repeat split; reflexivity.
    - unfold is_sequence in Hq. rewrite Hq. destruct (leqb (pc_kind q) (str "SpecialToken")); exact IH. }
  destruct H as (e' & -> & H1 & H2 & H3 & H4 & H5 & H6).
  unfold concat_enc; cbn. rewrite !app_nil_r. auto 10.
Qed.

(** ** parallel columns *)
Lemma append_flat a b : flat_parallel a -> flat_parallel b -> flat_parallel (append_enc a b).
Proof.
  intros (A1 & A2 & A3 & A4 & A5 & A6) (B1 & B2 & B3 & B4 & B5 & B6). unfold flat_parallel, append_enc.
  cbn [en_ids en_type_ids en_tokens en_words en_offsets en_smask en_amask]. rewrite !app_length. lia.
Qed.

Lemma fold_append_flat l a : flat_parallel a -> Forall flat_parallel l -> flat_parallel (fold_left append_enc l a).
Proof.
  intros Ha H; revert a Ha; induction H as [|x l Hx Hl IH]; intros a Ha; cbn [fold_left]; [exact Ha|].
  apply IH. apply append_flat; assumption.
Qed.

Lemma empty_flat : flat_parallel empty_enc.
Proof. repeat split. Qed.

Lemma special_enc_flat specials p :
  Forall (fun s => length (st_tokens s) = length (st_ids s)) specials -> flat_parallel (special_enc specials p).
Proof.
  intros H. unfold special_enc, flat_parallel. cbn [en_ids en_type_ids en_tokens en_words en_offsets en_smask en_amask].
  rewrite !repeat_length. unfold find_special. destruct (find _ specials) as [s|] eqn:E.
  - apply find_some in E as [Hin _]. rewrite Forall_forall in H. specialize (H s Hin). repeat split; auto.
  - repeat split.
Qed.

Lemma template_parts_flat single specials add e :
  Forall (fun s => length (st_tokens s) = length (st_ids s)) specials -> flat_parallel e ->
  Forall flat_parallel (template_parts single specials add e).
Proof.
  intros Hs; revert e; induction single as [|p l IH]; intros e He; cbn [template_parts]; [constructor|].
  destruct (leqb (pc_kind p) (str "Sequence")).
  - cbv zeta.
    assert (H : flat_parallel (if leqb (pc_id p) (str "A") then set_type_ids e (repeat (pc_type p) (length (en_type_ids e))) else e)).
    { destruct (leqb _ _); [|exact He]. destruct He as (H1 & H2 & H3 & H4 & H5 & H6). unfold flat_parallel, set_type_ids.
      cbn [en_ids en_type_ids en_tokens en_words en_offsets en_smask en_amask]. rewrite repeat_length. repeat split; assumption. }
    constructor; auto.
  - destruct (leqb _ _); [|auto]. destruct add; [|auto]. constructor; [apply special_enc_flat; exact Hs | auto].
Qed.

Lemma trim_all_length aps i ids toks offs r : trim_all aps i ids toks offs = Ok r -> length r = length offs.
Proof.
  revert i toks offs r; induction ids as [|x ids IH]; intros i toks offs r H; cbn [trim_all] in H; [inversion H; reflexivity|].
  destruct toks as [|t ts]; [discriminate|]. destruct offs as [|o os]; [discriminate|].
  apply bind_ok in H as [r' [Hr H]]. inversion H; subst. cbn [length]. f_equal. eapply IH; exact Hr.
Qed.

Lemma process_offsets_flat aps e r : process_offsets aps e = Ok r -> flat_parallel e -> flat_parallel r.
Proof.
  intros H (H1 & H2 & H3 & H4 & H5 & H6). unfold process_offsets in H. apply bind_ok in H as [o [Ho H]]. inversion H; subst.
  apply trim_all_length in Ho. unfold flat_parallel, set_offsets. cbn. repeat split; auto. lia.
Qed.

Lemma process_offsets_overflowing aps e r : process_offsets aps e = Ok r -> en_overflowing r = en_overflowing e.
Proof. intros H. unfold process_offsets in H. apply bind_ok in H as [o [Ho H]]. inversion H; subst. reflexivity. Qed.

Lemma process_offsets_parallel aps e r : process_offsets aps e = Ok r -> parallel e -> parallel r.
Proof.
  intros H Hp. inversion Hp as [? Hf Ho]; subst. constructor; [eapply process_offsets_flat; eassumption|].
  apply process_offsets_overflowing in H. rewrite H. exact Ho.
Qed.

Lemma byte_level_parallel aps trim e r : byte_level_process aps trim e = Ok r -> parallel e -> parallel r.
Proof.
  unfold byte_level_process. destruct trim; [|intros H; inversion H; subst; auto]. intros H Hp.
  apply bind_ok in H as [e' [He' H]]. apply bind_ok in H as [ov [Hov H]]. inversion H; subst.
  pose proof (process_offsets_parallel _ _ _ He' Hp) as Hp'. inversion Hp' as [? Hf Ho]; subst.
  constructor; [exact Hf|]. cbn [en_overflowing]. apply mapM_ok in Hov. clear - Hov Ho.
  induction Hov as [|x y l l' Hx Hl IH]; [constructor|]. inversion Ho; subst. constructor; [|auto].
  eapply process_offsets_parallel; eassumption.
Qed.

Lemma post_processor_induction (P : post_processor -> Prop) :
  (forall s sp, P (PTemplate s sp)) -> (forall a t, P (PByteLevel a t)) ->
  (forall l, Forall P l -> P (PSequence l)) -> forall p, P p.
Proof.
  intros H1 H2 H3. fix go 1. intros [s sp|a t|l]; [apply H1 | apply H2 |]. apply H3.
  induction l as [|q l IH]; constructor; [apply go | exact IH].
Qed.

Lemma process_seq_nil e add : process (PSequence []) e add = Ok e.
Proof. reflexivity. Qed.
Lemma process_seq_cons q l e add :
  process (PSequence (q :: l)) e add = (e' <- process q e add ;; process (PSequence l) e' add).
Proof. reflexivity. Qed.

Lemma process_seq_app l1 l2 e add :
  process (PSequence (l1 ++ l2)) e add = (e' <- process (PSequence l1) e add ;; process (PSequence l2) e' add).
Proof.
  revert e; induction l1 as [|q l1 IH]; intros e; cbn [app]; [reflexivity|].
  rewrite !process_seq_cons. destruct (process q e add); cbn [bind]; auto.
Qed.

Lemma process_seq_fold l e add : process (PSequence l) e add = foldM (fun x q => process q x add) e l.
Proof.
  revert e; induction l as [|q l IH]; intros e; [reflexivity|]. rewrite process_seq_cons. cbn [foldM].
  destruct (process q e add); cbn [bind]; auto.
Qed.

Theorem process_parallel p e add r : specials_ok p -> parallel e -> process p e add = Ok r -> parallel r.
Proof.
  revert e r; induction p as [s sp|a t|l IH] using post_processor_induction; intros e r Hs Hp H.
  - cbn [process] in H. inversion H; subst. constructor; [|rewrite template_no_overflow; constructor].
    unfold template_process. apply fold_append_flat; [apply empty_flat|]. apply template_parts_flat; [exact Hs|].
    inversion Hp; assumption.
  - cbn [process] in H. eapply byte_level_parallel; eassumption.
  - revert e Hp H Hs; induction IH as [|q l Hq Hl IHl]; intros e Hp H Hs.
    + rewrite process_seq_nil in H. inversion H; subst; exact Hp.
    + rewrite process_seq_cons in H. apply bind_ok in H as [e' [He' H]]. destruct Hs as [Hs1 Hs2].
      eapply IHl; [|exact H | exact Hs2]. eapply Hq; eassumption.
Qed.

(** ** ByteLevel offsets *)
Lemma utf8_of_space_symbol : nfind 32%N bytes_char = Some [0xC4; 0xA0]%N.
Proof. vm_compute. reflexivity. Qed.

Lemma utf16_cps_single u : utf16_cps [u] = [(u, 1)].
Proof. cbn. destruct (is_lead u); reflexivity. Qed.

Lemma space_symbol_iff u : is_space_symbol u = true <-> u = 0x120%N.
Proof.
  unfold is_space_symbol. rewrite utf8_of_space_symbol. unfold to_utf8. rewrite utf16_cps_single. cbn [flat_map fst].
  rewrite app_nil_r, leqb_eq. split.
  - unfold utf8_of_cp. destruct (is_surrogate u); [vm_compute; discriminate|]. unfold utf8_enc.
    destruct (N.ltb_spec u 0x80); [discriminate|]. destruct (N.ltb_spec u 0x800).
    + intros E. assert (E1 : (0xC0 + u / 64)%N = 0xC4%N) by congruence.
      assert (E2 : (0x80 + u mod 64)%N = 0xA0%N) by congruence. clear E. lia.
    + destruct (N.ltb_spec u 0x10000); discriminate.
  - intros ->. vm_compute. reflexivity.
Qed.

Lemma count_while_spec l : exists rest, l = repeat 0x120%N (count_while is_space_symbol l) ++ rest /\ hd_error rest <> Some 0x120%N.
Proof.
  induction l as [|x l [rest [Hr Hh]]]; cbn [count_while].
  - exists []. split; [reflexivity | discriminate].
  - destruct (is_space_symbol x) eqn:E.
    + apply space_symbol_iff in E. subst. exists rest. split; [cbn [repeat app]; congruence | exact Hh].
    + exists (x :: l). split; [reflexivity|]. cbn [hd_error]. intros H; inversion H; subst.
      rewrite (proj2 (space_symbol_iff _) eq_refl) in E. discriminate.
Qed.

Lemma leading_spec t : leading_count t (leading_spaces t).
Proof. exact (count_while_spec (from_utf8 t)). Qed.

Lemma rev_repeat {A} (x : A) k : rev (repeat x k) = repeat x k.
Proof. induction k; cbn [repeat rev]; [reflexivity|]. rewrite IHk. symmetry; apply repeat_cons. Qed.

Lemma trailing_spec t : trailing_count t (trailing_spaces t).
Proof.
  unfold trailing_count, trailing_spaces. destruct (count_while_spec (rev (from_utf8 t))) as (rest & Hr & Hh).
  exists (rev rest). rewrite rev_involutive. split; [|exact Hh].
  rewrite <- (rev_involutive (from_utf8 t)), Hr at 1. rewrite rev_app_distr, rev_repeat. reflexivity.
Qed.

Lemma leading_unique l a b ra rb :
  l = repeat 0x120%N a ++ ra -> hd_error ra <> Some 0x120%N ->
  l = repeat 0x120%N b ++ rb -> hd_error rb <> Some 0x120%N -> a = b.
Proof.
  intros -> Ha. revert b; induction a as [|a IH]; intros [|b] H Hb; cbn [repeat app] in *.
  - reflexivity.
  - subst ra. cbn in Ha. congruence.
  - rewrite <- H in Hb. cbn in Hb. congruence.
  - f_equal. inversion H. apply (IH b); assumption.
Qed.

Lemma leading_det t a : leading_count t a -> a = leading_spaces t.
Proof. intros (r & H1 & H2). destruct (leading_spec t) as (r' & H3 & H4). eapply leading_unique; eassumption. Qed.
Lemma trailing_det t a : trailing_count t a -> a = trailing_spaces t.
Proof.
  intros (r & H1 & H2). destruct (trailing_spec t) as (r' & H3 & H4).
  apply (f_equal (@rev N)) in H1, H3. rewrite rev_app_distr, rev_repeat in H1, H3.
  eapply leading_unique; eassumption.
Qed.

Lemma trim_offset_inside aps i t s e s' e' :
  s <= e -> trim_offset aps i t (s, e) = (s', e') -> s <= s' /\ s' <= e' /\ e' <= e.
Proof.
  intros H. unfold trim_offset. intros E. inversion E; subst; clear E.
  destruct (0 <? leading_spaces t); [|destruct ((0 <? trailing_spaces t) && (trailing_spaces t <=? e)) eqn:E2; lia].
  destruct (((i =? 0) || (s =? 0)) && aps && (leading_spaces t =? 1));
    destruct ((0 <? trailing_spaces t) && (trailing_spaces t <=? e)) eqn:E2; lia.
Qed.

Lemma trim_offset_exact i t s e lead trail :
  s <= e -> leading_count t lead -> trailing_count t trail ->
  trim_offset false i t (s, e) =
  (Nat.min (s + lead) e, if trail <=? e then Nat.max (e - trail) (Nat.min (s + lead) e) else e).
Proof.
  intros H Hl Ht. apply leading_det in Hl. apply trailing_det in Ht. subst. unfold trim_offset.
  rewrite andb_false_r. cbn [andb].
  destruct (Nat.ltb_spec 0 (leading_spaces t)).
  - f_equal. destruct (Nat.ltb_spec 0 (trailing_spaces t)); cbn [andb]; [reflexivity|].
    destruct (Nat.leb_spec (trailing_spaces t) e); lia.
  - replace (leading_spaces t) with 0 by lia. f_equal; [lia|].
    destruct (Nat.ltb_spec 0 (trailing_spaces t)); cbn [andb];
    destruct (Nat.leb_spec (trailing_spaces t) e); lia.
Qed.

Lemma trim_all_spec aps i ids toks offs :
  length toks = length ids -> length offs = length ids ->
  trim_all aps i ids toks offs =
  Ok (map (fun q => trim_offset aps (i + fst q) (fst (snd q)) (snd (snd q))) (combine (seq 0 (length ids)) (combine toks offs))).
Proof.
  revert i toks offs; induction ids as [|x ids IH]; intros i toks offs H1 H2.
  - destruct offs; [reflexivity | discriminate].
  - destruct toks as [|t ts]; [discriminate|]. destruct offs as [|o os]; [discriminate|].
    cbn [trim_all length] in *. rewrite IH by lia. cbn [bind]. f_equal.
    change (seq 0 (S (length ids))) with (0 :: seq 1 (length ids)). rewrite <- seq_shift. cbn [combine map fst snd].
    f_equal; [f_equal; lia|]. 
    clear. generalize (combine ts os) as l. generalize 0 as k. generalize (length ids) as n.
    induction n as [|n IHn]; intros k l; [reflexivity|]. cbn [seq map]. destruct l as [|q l]; [reflexivity|].
    cbn [combine map fst snd]. f_equal; [f_equal; lia|]. apply IHn.
Qed.

Lemma trim_offset_any aps i t s e lead trail : s <= e -> leading_count t lead -> trailing_count t trail ->
  trim_offset aps i t (s, e) = (Nat.min (s + kept_prefix aps i s lead) e, if trail <=? e then Nat.max (e - trail) (Nat.min (s + kept_prefix aps i s lead) e) else e).
Proof.
  intros H Hl Ht. apply leading_det in Hl. apply trailing_det in Ht. subst. unfold trim_offset, kept_prefix. rewrite (andb_comm aps). set (b := ((i =? 0) || (s =? 0)) && aps && (leading_spaces t =? 1)).
  assert (E1 : (if 0 <? leading_spaces t then Nat.min (s + (if b then 0 else leading_spaces t)) e else s) = Nat.min (s + (if b then 0 else leading_spaces t)) e).
  { destruct (Nat.ltb_spec 0 (leading_spaces t)); [reflexivity|]. replace (leading_spaces t) with 0 by lia. destruct b; lia. }
  cbv zeta. rewrite E1. f_equal. destruct (Nat.ltb_spec 0 (trailing_spaces t)); cbn [andb]; [reflexivity|]. destruct (Nat.leb_spec (trailing_spaces t) e); lia.
Qed.
Lemma process_offsets_ok aps e : flat_parallel e -> exists o, process_offsets aps e = Ok (set_offsets e o) /\
  length o = length (en_ids e) /\
  forall i t p, nth_error (en_tokens e) i = Some t -> nth_error (en_offsets e) i = Some p ->
                nth_error o i = Some (trim_offset aps i t p).
Proof.
  intros (H1 & H2 & H3 & H4 & H5 & H6). unfold process_offsets. rewrite trim_all_spec by assumption. cbn [bind].
  eexists; split; [reflexivity|]. split.
  - rewrite map_length, !combine_length, seq_length. lia.
  - intros i t p Ht Hp. assert (Hi : i < length (en_ids e)) by (rewrite <- H2; apply nth_error_Some; congruence).
    rewrite nth_error_map.
    assert (Hc : nth_error (combine (seq 0 (length (en_ids e))) (combine (en_tokens e) (en_offsets e))) i = Some (i, (t, p))).
    { assert (Hg : forall (A B : Type) (l1 : list A) (l2 : list B) j x y,
                 nth_error l1 j = Some x -> nth_error l2 j = Some y -> nth_error (combine l1 l2) j = Some (x, y)).
      { clear. intros A B l1; induction l1 as [|a l1 IH]; intros [|b l2] [|j] x y Hx Hy; cbn in *; try discriminate.
        - inversion Hx; inversion Hy; reflexivity.
        - apply IH; assumption. }
      apply Hg; [|apply Hg; assumption]. rewrite (nth_error_nth' _ 0) by (rewrite seq_length; exact Hi). rewrite seq_nth by exact Hi. reflexivity. }
    rewrite Hc. reflexivity.
Qed.
