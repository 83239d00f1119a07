(** C13, C14, C16, C17 and the post-processing part of C15. *)
From Verif Require Import Base Unicode Common Utils PostProcessor Spec EncFacts PostSpec PostProofs Sample.

(** C13. [contribution] and [concat_enc] are in PostSpec.v. *)
Theorem C13_template_exact : forall single specials add e,
  process (PTemplate single specials) e add
  = Ok (concat_enc (map (contribution single specials add e) (seq 0 (length single)))).
Proof. intros. cbn [process]. f_equal. apply template_spec. Qed.
Print Assumptions C13_template_exact.

(** [CLS] A [SEP] with type ids 0, 1, 1 *)
Definition bert_pieces : list piece :=
  [ mkPiece (str "SpecialToken") (str "[CLS]") 0; mkPiece (str "Sequence") (str "A") 1;
    mkPiece (str "SpecialToken") (str "[SEP]") 1; mkPiece (str "SpecialToken") (str "[NOPE]") 1 ].
Definition bert_specials : list special_token :=
  [ mkSpecial (str "[CLS]") [5%Z] [str "[CLS]"]; mkSpecial (str "[SEP]") [6%Z; 7%Z] [str "[S"; str "EP]"] ].
Example C13_witness :
  exists r, process (PTemplate bert_pieces bert_specials) (sample 2) true = Ok r /\
    en_ids r = [5; 100; 101; 6; 7]%Z /\ en_type_ids r = [0; 1; 1; 1; 1]%Z /\ en_smask r = [1; 0; 0; 1; 1]%Z /\
    en_words r = [None; Some 0; Some 1; None; None].
Proof. eexists; split; [vm_compute; reflexivity | repeat split]. Qed.

(** C14. *)
Theorem C14_no_special_tokens : forall before p after specials e,
  pc_kind p = str "Sequence" -> Forall (fun q => pc_kind q <> str "Sequence") (before ++ after) ->
  exists r, process (PTemplate (before ++ p :: after) specials) e false = Ok r /\
    en_ids r = en_ids e /\ en_tokens r = en_tokens e /\ en_words r = en_words e /\ en_offsets r = en_offsets e /\
    en_smask r = en_smask e /\ en_amask r = en_amask e.
Proof.
  intros before p after specials e Hp Hall. eexists; split; [reflexivity|].
  apply template_no_special.
  - unfold is_sequence. rewrite Hp. apply BaseFacts.leqb_refl.
  - eapply Forall_impl; [|exact Hall]. intros q Hq. unfold is_sequence. apply BaseFacts.leqb_neq; exact Hq.
Qed.
Print Assumptions C14_no_special_tokens.

Example C14_witness :
  exists b p a, bert_pieces = b ++ p :: a /\ pc_kind p = str "Sequence" /\ Forall (fun q => pc_kind q <> str "Sequence") (b ++ a).
Proof.
  exists [mkPiece (str "SpecialToken") (str "[CLS]") 0], (mkPiece (str "Sequence") (str "A") 1),
    [mkPiece (str "SpecialToken") (str "[SEP]") 1; mkPiece (str "SpecialToken") (str "[NOPE]") 1].
  split; [reflexivity|]. split; [reflexivity|]. repeat constructor; discriminate.
Qed.

(** C15 (post-processor part): the template discards the overflowing windows; ByteLevel keeps and processes them. *)
Theorem C15_template_drops_overflow : forall single specials e add r,
  process (PTemplate single specials) e add = Ok r -> en_overflowing r = [].
Proof. intros single specials e add r H. cbn [process] in H. inversion H. apply template_no_overflow. Qed.
Print Assumptions C15_template_drops_overflow.

Theorem C15_overflow_kept : forall aps trim e add r,
  parallel e -> process (PByteLevel aps trim) e add = Ok r -> length (en_overflowing r) = length (en_overflowing e).
Proof.
  intros aps trim e add r Hp H. cbn [process] in H. unfold byte_level_process in H. destruct trim; [|inversion H; reflexivity].
  apply BaseFacts.bind_ok in H as [e' [He' H]]. apply BaseFacts.bind_ok in H as [ov [Hov H]]. inversion H; subst.
  cbn [en_overflowing]. apply BaseFacts.mapM_length in Hov. rewrite Hov, (process_offsets_overflowing _ _ _ He'). reflexivity.
Qed.
Print Assumptions C15_overflow_kept.

(** C16. ByteLevel changes nothing but offsets (also in the overflowing parts); position by position the new pair is
    the trimmed old one. *)
Theorem C16_byte_level_only_offsets : forall aps trim e add,
  parallel e ->
  exists r, process (PByteLevel aps trim) e add = Ok r /\
    en_ids r = en_ids e /\ en_type_ids r = en_type_ids e /\ en_tokens r = en_tokens e /\ en_words r = en_words e /\
    en_smask r = en_smask e /\ en_amask r = en_amask e /\ length (en_offsets r) = length (en_ids e) /\
    length (en_overflowing r) = length (en_overflowing e) /\
    (forall i s t, nth_error (en_offsets e) i = Some (s, t) -> s <= t ->
       exists s' t', nth_error (en_offsets r) i = Some (s', t') /\ s <= s' /\ s' <= t' /\ t' <= t).
Proof.
  intros aps trim e add Hp. inversion Hp as [? Hf Hov]; subst. pose proof Hf as (F1 & F2 & F3 & F4 & F5 & F6).
  cbn [process]. unfold byte_level_process. destruct trim.
  - destruct (process_offsets_ok aps e Hf) as (o & Ho & Hlen & Hnth). rewrite Ho. cbn [bind].
    assert (Hm : exists ov, mapM (process_offsets aps) (en_overflowing e) = Ok ov).
    { clear - Hov. induction Hov as [|x l Hx Hl [ov IH]]; [exists []; reflexivity|].
      inversion Hx as [? Hfx _]; subst. destruct (process_offsets_ok aps x Hfx) as (o & Ho & _).
      cbn [mapM]. rewrite Ho. cbn [bind]. rewrite IH. eexists; reflexivity. }
    destruct Hm as [ov Hm]. cbn [set_offsets en_overflowing]. rewrite Hm. cbn [bind].
    eexists; split; [reflexivity|]. cbn [set_offsets en_ids en_type_ids en_tokens en_words en_offsets en_smask en_amask en_overflowing].
    do 6 (split; [reflexivity|]). split; [exact Hlen|]. split; [eapply BaseFacts.mapM_length; exact Hm|].
    intros i s t Hi Hst. assert (i < length (en_tokens e)) by (rewrite F2, <- F4; apply nth_error_Some; congruence).
    destruct (nth_error (en_tokens e) i) as [tok|] eqn:Et; [|apply nth_error_None in Et; lia].
    destruct (trim_offset aps i tok (s, t)) as [s' t'] eqn:E. exists s', t'.
    split; [rewrite (Hnth i tok (s, t) Et Hi), E; reflexivity|]. eapply trim_offset_inside; eassumption.
  - exists e. split; [reflexivity|]. do 6 (split; [reflexivity|]). split; [exact F4|]. split; [reflexivity|].
    intros i s t Hi Hst. exists s, t. repeat split; auto.
Qed.
Print Assumptions C16_byte_level_only_offsets.

Theorem C16_byte_level_trim_exact : forall e add i tok s t lead trail,
  parallel e ->
  nth_error (en_tokens e) i = Some tok -> nth_error (en_offsets e) i = Some (s, t) -> s <= t ->
  leading_count tok lead -> trailing_count tok trail ->
  exists r, process (PByteLevel false true) e add = Ok r /\
    nth_error (en_offsets r) i = Some (Nat.min (s + lead) t, if trail <=? t then Nat.max (t - trail) (Nat.min (s + lead) t) else t).
Proof.
  intros e add i tok s t lead trail Hp Htok Hoff Hst Hl Ht.
  destruct (C16_byte_level_only_offsets false true e add Hp) as (r & Hr & _). exists r. split; [exact Hr|].
  cbn [process] in Hr. unfold byte_level_process in Hr. inversion Hp as [? Hf Hov]; subst.
  destruct (process_offsets_ok false e Hf) as (o & Ho & Hlen & Hnth). rewrite Ho in Hr. cbn [bind] in Hr.
  apply BaseFacts.bind_ok in Hr as [ov [_ Hr]]. inversion Hr; subst. cbn [en_offsets set_offsets].
  rewrite (Hnth i tok (s, t) Htok Hoff). f_equal. apply trim_offset_exact; assumption.
Qed.
Print Assumptions C16_byte_level_trim_exact.

(** For every setting, and in every overflowing part as well. *)
Theorem C16_trimmed_everywhere : forall aps e add r, parallel e -> process (PByteLevel aps true) e add = Ok r -> trimmed aps e r /\ Forall2 (trimmed aps) (en_overflowing e) (en_overflowing r).
Proof.
  assert (K : forall aps e e', flat_parallel e -> process_offsets aps e = Ok e' -> trimmed aps e e' /\ en_overflowing e' = en_overflowing e).
  { intros aps e e' Hf H. destruct (process_offsets_ok aps e Hf) as (o & Ho & Hlen & Hnth). rewrite Ho in H. injection H as <-. split; [|reflexivity]. destruct Hf as (F1 & F2 & F3 & F4 & F5 & F6).
    unfold trimmed. cbn [set_offsets en_ids en_type_ids en_tokens en_words en_offsets en_smask en_amask]. do 6 (split; [reflexivity|]). split; [congruence|]. intros i tok s t lead trail Ht Hi Hst Hl Htr. cbv zeta. rewrite (Hnth i tok (s, t) Ht Hi). f_equal. apply trim_offset_any; assumption. }
  intros aps e add r Hp H. inversion Hp as [? Hf Hov]; subst. cbn [process] in H. unfold byte_level_process in H. apply BaseFacts.bind_ok in H as (e' & He & H). destruct (K aps e e' Hf He) as [T O]. apply BaseFacts.bind_ok in H as (ov & Hm & H). injection H as <-.
  split; [exact T|]. cbn [en_overflowing]. rewrite O in Hm. apply BaseFacts.mapM_ok in Hm. clear - Hm Hov K. induction Hm as [|x y l l' Hx _ IH]; [constructor|]. inversion Hov as [|? ? Hpx Hpl]; subst. constructor; [|apply IH; exact Hpl].
  inversion Hpx as [? Hfx _]; subst. apply (K aps x y Hfx Hx).
Qed.
Print Assumptions C16_trimmed_everywhere.

Example C16_witness :
  let e := mkEnc [1; 2]%Z [0; 0]%Z [utf8_enc 0x120 ++ utf8_enc 0x120 ++ str "ab" ++ utf8_enc 0x120; str "c"] [Some 0; Some 1]
                 [(3, 8); (8, 9)] [0; 0]%Z [1; 1]%Z [] in
  parallel e /\ exists r, process (PByteLevel false true) e false = Ok r /\ en_offsets r = [(5, 7); (8, 9)].
Proof. split; [constructor; [repeat split | constructor] | eexists; split; [vm_compute; reflexivity | reflexivity]]. Qed.

(** C17. *)
Theorem C17_sequence_composition : forall l1 l2 e add,
  process (PSequence []) e add = Ok e /\
  (forall p, process (PSequence [p]) e add = process p e add) /\
  process (PSequence (l1 ++ l2)) e add = (e' <- process (PSequence l1) e add ;; process (PSequence l2) e' add).
Proof.
  intros l1 l2 e add. split; [reflexivity|]. split; [|apply process_seq_app].
  intros p. rewrite process_seq_cons. destruct (process p e add); reflexivity.
Qed.
Print Assumptions C17_sequence_composition.
