(** C88: decoding piece by piece. *)
From Verif Require Import Base BaseFacts Unicode Common Decoder Normalizer PreTokenizer WordPiece Bpe AddedVocab Tokenizer PropsDecoder PropsEncode Env.

Lemma decode_ids_app t skip a : forall b, decode_ids t skip (a ++ b) = (x <- decode_ids t skip a ;; y <- decode_ids t skip b ;; Ok (x ++ y)).
Proof.
  induction a as [|i a IH]; intros b; cbn [app decode_ids bind]; [destruct (decode_ids t skip b); reflexivity|].
  destruct (tz_av t) as [av|]; [|reflexivity]. destruct (match av_id_to_token av i with Some s => Ok s | None => _ end) as [tok| | |]; cbn [bind]; try reflexivity.
  rewrite IH. destruct (decode_ids t skip a) as [x| | |]; cbn [bind]; try reflexivity. destruct (decode_ids t skip b) as [y| | |]; cbn [bind]; try reflexivity.
  destruct (negb skip || negb (is_special_token av tok)); reflexivity.
Qed.
Lemma mapM_app {A B} (f : A -> res B) a : forall b, mapM f (a ++ b) = (x <- mapM f a ;; y <- mapM f b ;; Ok (x ++ y)).
Proof.
  induction a as [|i a IH]; intros b; cbn [app mapM bind]; [destruct (mapM f b); reflexivity|]. destruct (f i); cbn [bind]; try reflexivity.
  rewrite IH. destruct (mapM f a); cbn [bind]; try reflexivity. destruct (mapM f b); reflexivity.
Qed.

(** ** ByteLevel *)
(** Decoding a sequence of ids is decoding its parts and joining the texts. *)
Theorem C88_byte_level : forall t skip ids1 ids2, tz_dec t = Some DByteLevel ->
  decode t (ids1 ++ ids2) skip = (a <- decode t ids1 skip ;; b <- decode t ids2 skip ;; Ok (a ++ b)).
Proof.
  intros t skip a b Hd. unfold decode. rewrite Hd, decode_ids_app. destruct (decode_ids t skip a) as [x| | |]; cbn [bind]; try reflexivity. cbn [decode_chain bind].
  destruct (decode_ids t skip b) as [y| | |]; cbn [bind decode_chain]; try reflexivity. unfold byte_level_decode. rewrite flat_map_app. cbn [concat]. rewrite !app_nil_r. reflexivity.
Qed.
Print Assumptions C88_byte_level.

(** ** WordPiece *)
Lemma wp_one_total prefix cleanup first s : exists r, wp_decode_one prefix cleanup first s = Ok r.
Proof.
  destruct first.
  - destruct (decode_total (DWordPiece prefix cleanup) [s]) as (r & H). cbn [decode_chain wp_decode] in H. apply bind_ok in H as (x & H & _). eauto.
  - destruct (decode_total (DWordPiece prefix cleanup) [[]; s]) as (r & H). cbn [decode_chain wp_decode mapM] in H. apply bind_ok in H as (x & _ & H). apply bind_ok in H as (y & H & _). apply bind_ok in H as (z & H & _). eauto.
Qed.
Lemma wp_more_total prefix cleanup l : exists r, mapM (wp_decode_one prefix cleanup false) l = Ok r.
Proof.
  induction l as [|s l (r & IH)]; [exists []; reflexivity|]. cbn [mapM]. destruct (wp_one_total prefix cleanup false s) as (x & ->). rewrite IH. eexists. reflexivity.
Qed.
(** What the ids after the first ones add to the text depends on them alone, not on what was decoded before. *)
Theorem C88_wordpiece : forall t prefix cleanup, tz_dec t = Some (DWordPiece prefix cleanup) ->
  exists rest : list Z -> res bytes, forall ids1 ids2, ids1 <> [] ->
    decode t (ids1 ++ ids2) false = (a <- decode t ids1 false ;; b <- rest ids2 ;; Ok (a ++ b)).
Proof.
  intros t prefix cleanup Hd. exists (fun ids => toks <- decode_ids t false ids ;; l <- mapM (wp_decode_one prefix cleanup false) toks ;; Ok (concat l)).
  intros a b Ha. unfold decode. rewrite Hd, decode_ids_app. destruct (decode_ids t false a) as [x| | |] eqn:Ex; cbn [bind]; try reflexivity.
  assert (Hx : x <> []).
  { intros ->. destruct a as [|i a]; [congruence|]. cbn [decode_ids] in Ex. destruct (tz_av t) as [av|]; [|discriminate]. apply bind_ok in Ex as (tok & _ & Ex). apply bind_ok in Ex as (r & _ & Ex). discriminate. }
  destruct x as [|s x]; [congruence|]. cbn [decode_chain wp_decode app]. destruct (wp_one_total prefix cleanup true s) as (s' & Hs). destruct (wp_more_total prefix cleanup x) as (x' & Hx').
  rewrite Hs. cbn [bind]. rewrite Hx'. cbn [bind]. destruct (decode_ids t false b) as [y| | |]; cbn [bind]; try reflexivity.
  cbn [decode_chain wp_decode app]. rewrite Hs. cbn [bind]. rewrite mapM_app, Hx'. cbn [bind]. destruct (wp_more_total prefix cleanup y) as (y' & ->). cbn [bind concat]. rewrite concat_app, app_assoc. reflexivity.
Qed.
Print Assumptions C88_wordpiece.

(** ** Both: the text only ever grows *)
(** If a sequence of ids decodes, with or without special tokens, so does every beginning of it, to a beginning of the text. *)
Theorem C88_prefix : forall t d skip ids1 ids2 text, tz_dec t = Some d -> d = DByteLevel \/ (exists prefix cleanup, d = DWordPiece prefix cleanup) ->
  decode t (ids1 ++ ids2) skip = Ok text -> exists text1 more, decode t ids1 skip = Ok text1 /\ text = text1 ++ more.
Proof.
  intros t d skip a b text Hd [->|(prefix & cleanup & ->)] H.
  - rewrite (C88_byte_level t skip a b Hd) in H. apply bind_ok in H as (x & Hx & H). apply bind_ok in H as (y & _ & H). injection H as <-. eauto.
  - unfold decode in *. rewrite Hd in *. rewrite decode_ids_app in H. destruct (decode_ids t skip a) as [x| | |]; try discriminate. cbn [bind] in *. destruct (decode_ids t skip b) as [y| | |]; try discriminate. cbn [bind] in H.
    destruct x as [|s x]; [exists [], text; split; reflexivity|]. cbn [decode_chain wp_decode app] in *. destruct (wp_one_total prefix cleanup true s) as (s' & Hs). destruct (wp_more_total prefix cleanup x) as (x' & Hx').
    rewrite Hs in *. cbn [bind] in *. rewrite mapM_app, Hx' in H. cbn [bind] in *. destruct (wp_more_total prefix cleanup y) as (y' & Hy'). rewrite Hy' in H. cbn [bind] in H. injection H as <-. rewrite Hx'. cbn [bind].
    eexists _, _. split; [reflexivity|]. cbn [concat]. rewrite concat_app, app_assoc. reflexivity.
Qed.
Print Assumptions C88_prefix.
Example C88_case : tz_dec (demo None None None) = Some (DWordPiece (str "##") false) /\ decode (demo None None None) [3; 4]%Z false = Ok (str "playing") /\ decode (demo None None None) [3; 4; 5]%Z false = Ok (str "playing chess").
Proof. split; [reflexivity|]. split; vm_compute; reflexivity. Qed.
(** It is not so for every decoder: in a Sequence of ByteLevel and WordPiece with clean-up the end of the text can change. *)
Theorem C88_sequence_boundary : exists t text1 text, decode t [1]%Z false = Ok text1 /\ decode t [1; 2]%Z false = Ok text /\ ~ exists more, text = text1 ++ more.
Proof.
  exists (mkTz None None (Some (new_added_vocab [])) None None (Some (MWordPiece (mkWp [(str "x", 0); (str "a ", 1); (str ".", 2)]%Z (str "x") 100 (str "##")))) (Some (DSequence [DByteLevel; DWordPiece (str "##") true])) None), (str "a "), (str "a.").
  split; [vm_compute; reflexivity|]. split; [vm_compute; reflexivity|]. intros (more & H). discriminate.
Qed.
Print Assumptions C88_sequence_boundary.
