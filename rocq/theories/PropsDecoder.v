(** C18, C19, C20, C22, C23 and C76: decoders, byte alphabet, UTF-8. *)
From Verif Require Import Base BaseFacts Unicode UnicodeProofs Common Decoder DecSpec DecProofs.

(** C18. [wp_decoded] is in DecSpec.v. *)
Theorem C18_wordpiece_decoding : forall prefix t r,
  exists r', decode_chain (DWordPiece prefix false) (t :: r) = Ok (t :: r') /\ Forall2 (wp_decoded prefix) r r'.
Proof. exact wp_decode_spec. Qed.
Print Assumptions C18_wordpiece_decoding.

Theorem C18_rule_is_functional : forall prefix t a b, wp_decoded prefix t a -> wp_decoded prefix t b -> a = b.
Proof. exact wp_decoded_fun. Qed.
Print Assumptions C18_rule_is_functional.

Example C18_witness :
  decode_chain (DWordPiece (str "##") false) [str "##un"; str "##aff"; str "able"; str "##"] = Ok [str "##un"; str "aff"; str " able"; []].
Proof. vm_compute; reflexivity. Qed.

(** C19. [replaced] (leftmost, non-overlapping) and the documented rule list are in DecSpec.v. *)
Theorem C19_replace_leftmost : forall from to s, from <> [] ->
  exists r, replace s from to = Ok r /\ replaced from to s r /\ (forall r', replaced from to s r' -> r' = r).
Proof.
  intros from to s H. destruct (replace_spec from to s H) as (r & H1 & H2). exists r. split; [exact H1|]. split; [exact H2|].
  intros r' H3. eapply replaced_fun; eassumption.
Qed.
Print Assumptions C19_replace_leftmost.

Theorem C19_cleanup : forall s,
  exists r, cleanup_token s = Ok r /\ replaced_all documented_cleanup s r /\
            (forall r', replaced_all documented_cleanup s r' -> r' = r).
Proof.
  intros s. destruct (cleanup_spec s) as (r & H1 & H2). exists r. split; [exact H1|]. split; [exact H2|].
  intros r' H3. eapply replaced_all_fun; [|exact H3 | exact H2]. repeat constructor; discriminate.
Qed.
Print Assumptions C19_cleanup.

Theorem C19_cleanup_decoding_total : forall prefix tokens,
  exists r, decode_chain (DWordPiece prefix true) tokens = Ok r /\ length r = length tokens.
Proof. exact wp_cleanup_total. Qed.
Print Assumptions C19_cleanup_decoding_total.

Example C19_witness : cleanup_token (str "we do not ' s . .") = Ok (str "we don't's..").
Proof. vm_compute; reflexivity. Qed.

(** C20. Replace, ByteFallback, Fuse and Strip return no text at all, whatever the tokens. *)
Theorem C20_decoders_discard : forall tokens pattern content start stop,
  decode_chain DFuse tokens = Ok [] /\ decode_chain DByteFallback tokens = Ok [] /\
  decode_chain (DReplace pattern content) tokens = Ok [] /\ decode_chain (DStrip content start stop) tokens = Ok [].
Proof. repeat split. Qed.
Print Assumptions C20_decoders_discard.

Lemma decoder_induction (P : decoder -> Prop) : (forall p c, P (DWordPiece p c)) -> (forall a b, P (DReplace a b)) -> P DByteFallback -> P DFuse -> (forall c a b, P (DStrip c a b)) ->
  (forall l, Forall P l -> P (DSequence l)) -> P DByteLevel -> forall d, P d.
Proof. intros H1 H2 H3 H4 H5 H6 H7. fix go 1. intros [p c|a b| | |c a b|l|]; [apply H1 | apply H2 | apply H3 | apply H4 | apply H5 | | apply H7]. apply H6. induction l as [|q l IH]; constructor; [apply go | exact IH]. Qed.
Lemma stub_any l : has_stub (DSequence l) = existsb has_stub l.
Proof. induction l as [|q r IH]; [reflexivity|]. cbn [existsb]. rewrite <- IH. reflexivity. Qed.
Lemma decode_nothing : forall d t, t = [] \/ t = [[]] -> exists r, decode_chain d t = Ok r /\ (r = [] \/ r = [[]]).
Proof.
  intros d. induction d as [p c|a b| | |c a b|l IH|] using decoder_induction; intros t Ht; cbn [decode_chain]; try (exists []; split; [reflexivity | left; reflexivity]).
  - destruct Ht as [->| ->]; [exists []; split; [reflexivity | left; reflexivity]|]. exists [[]]. split; [|right; reflexivity]. destruct c; reflexivity.
  - change (exists r, decode_chain (DSequence l) t = Ok r /\ (r = [] \/ r = [[]])). revert t Ht. induction IH as [|q l Hq _ IHl]; intros t Ht; [rewrite decode_seq_nil; eauto|].
    rewrite decode_seq_cons. destruct (Hq t Ht) as (r & -> & Hr). cbn [bind]. apply IHl. exact Hr.
  - exists [[]]. split; [|right; reflexivity]. destruct Ht as [->| ->]; reflexivity.
Qed.
Lemma stub_nothing : forall d, has_stub d = true -> forall t, exists r, decode_chain d t = Ok r /\ (r = [] \/ r = [[]]) \/ (forall r, decode_chain d t <> Ok r).
Proof.
  intros d. induction d as [p c|a b| | |c a b|l IH|] using decoder_induction; intros Hs t; try discriminate Hs; cbn [decode_chain]; try (exists []; left; split; [reflexivity | left; reflexivity]).
  rewrite stub_any in Hs. change (exists r, decode_chain (DSequence l) t = Ok r /\ (r = [] \/ r = [[]]) \/ (forall r, decode_chain (DSequence l) t <> Ok r)). revert t Hs. induction IH as [|q l Hq _ IHl]; intros t Hs; [discriminate|]. rewrite decode_seq_cons. cbn [existsb] in Hs. destruct (has_stub q) eqn:E.
  - destruct (Hq eq_refl t) as (r & [[-> Hr]|Hr]).
    + cbn [bind]. destruct (decode_nothing (DSequence l) r Hr) as (r' & K1 & K2). exists r'. left. split; assumption.
    + exists []. right. intros x Hx. apply bind_ok in Hx as (y & Hy & _). exact (Hr y Hy).
  - cbn [orb] in Hs. destruct (decode_chain q t) as [t'| | |]; cbn [bind]; [apply IHl; exact Hs | | |]; exists []; right; discriminate.
Qed.
Lemma decode_total : forall d t, exists r, decode_chain d t = Ok r.
Proof.
  intros d. induction d as [p c|a b| | |c a b|l IH|] using decoder_induction; intros t; cbn [decode_chain]; try (eexists; reflexivity).
  - destruct c; [destruct (wp_cleanup_total p t) as (r & H & _); exists r; exact H|]. destruct t as [|x r]; [exists []; reflexivity|]. destruct (wp_decode_spec p x r) as (r' & H & _). exists (x :: r'). exact H.
  - change (exists r, decode_chain (DSequence l) t = Ok r). revert t. induction IH as [|q l Hq _ IHl]; intros t; [eexists; apply decode_seq_nil|]. rewrite decode_seq_cons. destruct (Hq t) as (r & ->). apply IHl.
Qed.
Lemma no_stub_keeps : forall d, has_stub d = false -> decode_chain d [str "a"] = Ok [str "a"].
Proof.
  intros d. induction d as [p c|a b| | |c a b|l IH|] using decoder_induction; intros Hs; try discriminate Hs.
  - destruct c; vm_compute; reflexivity.
  - rewrite stub_any in Hs. induction IH as [|q l Hq _ IHl]; [reflexivity|]. cbn [existsb] in Hs. apply orb_false_iff in Hs as [H1 H2]. rewrite decode_seq_cons, (Hq H1). exact (IHl H2).
  - vm_compute. reflexivity.
Qed.
(** Every decoder returns for every token list; a decoder produces no text for any tokens if and only if it is, or contains at any depth, one of these four kinds. *)
Theorem C20_no_text_iff : forall d,
  (forall tokens, exists r, decode_chain d tokens = Ok r) /\
  ((forall tokens r, decode_chain d tokens = Ok r -> concat r = []) <-> has_stub d = true).
Proof.
  intros d. split; [apply decode_total|]. split.
  - intros H. destruct (has_stub d) eqn:E; [reflexivity|]. specialize (H _ _ (no_stub_keeps d E)). discriminate.
  - intros Hs tokens r Hr. destruct (stub_nothing d Hs tokens) as (r' & [[H1 H2]|H1]); [|exfalso; exact (H1 r Hr)]. rewrite H1 in Hr. injection Hr as <-. destruct H2 as [->| ->]; reflexivity.
Qed.
Print Assumptions C20_no_text_iff.
Example C20_case : has_stub (DSequence [DReplace (str "a") (str "b"); DByteLevel; DFuse]) = true /\ has_stub (DSequence [DByteLevel; DWordPiece (str "##") true]) = false.
Proof. split; reflexivity. Qed.

(** C22. Any grouping of the bytes into tokens; [gpt2_cp] is the GPT-2 alphabet, DecSpec.v. *)
Theorem C22_byte_level_inverse_iff : forall groups : list (list N),
  Forall (Forall (fun b => (b < 256)%N)) groups ->
  (decode_chain DByteLevel (map (fun bs => utf8_encs (map gpt2_cp bs)) groups) = Ok [concat groups] <->
   Forall (fun b => decodable_byte b = true) (concat groups)).
Proof. exact byte_level_round_trip_iff. Qed.
Print Assumptions C22_byte_level_inverse_iff.

(** For the other bytes (0x7F..0xA0 and 0xAD) it is wrong byte by byte. *)
Theorem C22_byte_level_inverse_bytewise : forall groups,
  Forall (Forall (fun b => (b < 256)%N)) groups ->
  exists out, decode_chain DByteLevel (map (fun bs => utf8_encs (map gpt2_cp bs)) groups) = Ok [out] /\
    length out = length (concat groups) /\
    (forall i b, nth_error (concat groups) i = Some b ->
       exists c, nth_error out i = Some c /\ (c = b <-> decodable_byte b = true)).
Proof. exact byte_level_round_trip. Qed.
Print Assumptions C22_byte_level_inverse_bytewise.

(** Refuted in full: the UTF-8 text of U+4E00 (E4 B8 80) does not come back. *)
Theorem C22_byte_level_inverse_boundary :
  exists bs : list N, utf8_enc 0x4E00 = bs /\ decode_chain DByteLevel [utf8_encs (map gpt2_cp bs)] <> Ok [bs].
Proof. exists [0xE4; 0xB8; 0x80]%N. split; [reflexivity|]. vm_compute. discriminate. Qed.
Print Assumptions C22_byte_level_inverse_boundary.

Example C22_witness :
  Forall (Forall (fun b => (b < 256)%N)) [str "hi "; [10; 255; 161]%N] /\
  Forall (fun b => decodable_byte b = true) (concat [str "hi "; [10; 255; 161]%N]).
Proof. split; repeat constructor. Qed.

(** C23. *)
Theorem C23_byte_alphabet : forall b, (b < 256)%N ->
  nfind b bytes_char = Some (utf8_enc (gpt2_cp b)) /\
  (0x21 <= gpt2_cp b <= 0x7E \/ 0xA1 <= gpt2_cp b <= 0x143)%N /\ gpt2_cp b <> 0xAD%N /\
  ((0x21 <= b <= 0x7E)%N -> gpt2_cp b = b).
Proof.
  intros b H. split; [apply bytes_char_spec; exact H|]. destruct (gpt2_cp_range b H) as [H1 H2].
  split; [exact H1|]. split; [exact H2|]. apply gpt2_cp_ascii.
Qed.
Print Assumptions C23_byte_alphabet.

Theorem C23_byte_alphabet_injective : forall a b, (a < 256)%N -> (b < 256)%N ->
  nfind a bytes_char = nfind b bytes_char -> a = b.
Proof.
  intros a b Ha Hb. rewrite !bytes_char_spec by assumption. intros H. inversion H as [H']. clear H.
  apply utf8_enc_inj in H'; [|apply gpt2_cp_valid; assumption..]. apply gpt2_cp_inj; assumption.
Qed.
Print Assumptions C23_byte_alphabet_injective.

Theorem C23_byte_alphabet_keys : NoDup (map fst bytes_char) /\ forall b, In b (map fst bytes_char) <-> (b < 256)%N.
Proof.
  split.
  - assert (H : forall l : list N, (fix nodup (l : list N) : bool := match l with [] => true | x :: r => negb (existsb (N.eqb x) r) && nodup r end) l = true -> NoDup l).
    { induction l as [|x l IH]; intros H; [constructor|]. apply andb_prop in H as [H1 H2]. constructor; [|auto].
      intros Hi. apply negb_true_iff in H1. rewrite existsb_false_iff in H1. specialize (H1 x Hi). rewrite N.eqb_refl in H1. discriminate. }
    apply H. vm_compute. reflexivity.
  - intros b. rewrite bytes_char_keys, in_app_iff, !filter_In. split.
    + intros [[H _]|[H _]]; unfold all_bytes in H; apply in_map_iff in H as (n & <- & Hn); apply in_seq in Hn; lia.
    + intros H. pose proof (in_all_bytes b H). destruct (gpt2_printable b) eqn:E; [left | right]; (split; [assumption | rewrite ?E; reflexivity]).
Qed.
Print Assumptions C23_byte_alphabet_keys.

(** C76. *)
Theorem C76_utf8_round_trip : forall s, forallb valid_cp s = true ->
  exists b, convert_to_string s = Ok b /\ convert_from_string b = Ok s.
Proof. exact convert_round_trip. Qed.
Print Assumptions C76_utf8_round_trip.

Theorem C76_utf8_rejects_everything_else : forall b,
  (forall s, convert_from_string b = Ok s <-> (convert_to_string s = Ok b)) /\
  ((forall s, convert_to_string s <> Ok b) -> convert_from_string b = Throw RangeError).
Proof.
  assert (Hiff : forall b s, convert_from_string b = Ok s <-> convert_to_string s = Ok b).
  { intros b s. rewrite convert_from_string_iff. unfold convert_to_string. destruct (forallb valid_cp s); split.
    - intros [-> _]; reflexivity.
    - intros H; inversion H; auto.
    - intros [_ H]; discriminate.
    - discriminate. }
  intros b. split; [apply Hiff|].
  intros H. destruct (convert_from_string_total b) as [[s Hs]|Hs]; [|exact Hs]. apply Hiff in Hs. exfalso. eapply H; exact Hs.
Qed.
Print Assumptions C76_utf8_rejects_everything_else.

Theorem C76_invalid_wide_string_rejected : forall s,
  convert_to_string s = Throw RangeError <-> exists c, In c s /\ ((0xD800 <= c <= 0xDFFF)%N \/ (0x10FFFF < c)%N).
Proof.
  intros s. unfold convert_to_string. destruct (forallb valid_cp s) eqn:E.
  - split; [discriminate|]. intros (c & Hc & H). rewrite forallb_forall in E. specialize (E c Hc). apply valid_cp_spec in E. lia.
  - split; [intros _|reflexivity].
    assert (H : exists c, In c s /\ valid_cp c = false).
    { clear - E. induction s as [|c s IH]; [discriminate|]. cbn in E. destruct (valid_cp c) eqn:Ec.
      - destruct (IH E) as (x & Hx & Hv). exists x; split; [right; exact Hx | exact Hv].
      - exists c; split; [left; reflexivity | exact Ec]. }
    destruct H as (c & Hc & Hv). exists c. split; [exact Hc|].
    destruct (N.leb_spec 0xD800 c), (N.leb_spec c 0xDFFF), (N.leb_spec c 0x10FFFF); try lia;
      exfalso; assert (valid_cp c = true) by (apply valid_cp_spec; lia); congruence.
Qed.
Print Assumptions C76_invalid_wide_string_rejected.

Example C76_witness : forallb valid_cp [0x41; 0xE9; 0x20AC; 0x1F600]%N = true /\
  convert_to_string [0x41; 0xE9; 0x20AC; 0x1F600]%N = Ok [0x41; 0xC3; 0xA9; 0xE2; 0x82; 0xAC; 0xF0; 0x9F; 0x98; 0x80]%N.
Proof. split; vm_compute; reflexivity. Qed.
