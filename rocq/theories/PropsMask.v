(** C120: the mask-filling example program. Specification: MaskSpec.v. *)
From Verif Require Import Base BaseFacts Unicode UnicodeProofs Common Utils UtilsProofs PostProcessor Decoder Normalizer PreTokenizer WordPiece Bpe AddedVocab Tokenizer Config Spec PostSpec TzSpec TzProofs TextProofs
  AvSpec OutSpec BpeSpec BpeProofs BpeWord HistSpec DecodableSpec PropsDecoder PropsEncode PropsDecodable Mask MaskSpec Env ConfigSpec PropsBertConfig.

Lemma masked_spec ids : forall i, (exists k, first_at 103 ids k /\ masked_index ids i = (i + Z.of_nat k)%Z) \/ (~ In 103%Z ids /\ masked_index ids i = (-1)%Z).
Proof.
  induction ids as [|x ids IH]; intros i; [right; split; [intros [] | reflexivity]|]. cbn [masked_index]. destruct (Z.eqb_spec x 103) as [->|N].
  - left. exists 0. split; [split; [reflexivity | intros j Hj; lia] | lia].
  - destruct (IH (i + 1)%Z) as [(k & (K1 & K2) & ->)|(K & ->)].
    + left. exists (S k). split; [split; [exact K1|] | lia]. intros [|j] Hj; cbn [nth_error]; [congruence | apply K2; lia].
    + right. split; [intros [E|H]; [congruence | auto] | reflexivity].
Qed.
Lemma tensor_nat {A} (l : list A) k x : tensor_at l (Z.of_nat k) = Ok x <-> nth_error l k = Some x.
Proof.
  unfold tensor_at. destruct (Z.ltb_spec (Z.of_nat k) 0); [lia|]. destruct (Z.leb_spec 0 (Z.of_nat k)); [|lia]. cbn [andb]. destruct (Z.ltb_spec (Z.of_nat k) (Z.of_nat (length l))) as [L|L]; rewrite ?Nat2Z.id.
  - destruct (nth_error l k); split; congruence.
  - split; [discriminate|]. intros G. assert (k < length l) by (apply nth_error_Some; congruence). lia.
Qed.
Lemma tensor_last {A} (l : list A) x : tensor_at l (-1) = Ok x <-> exists front, l = front ++ [x].
Proof.
  destruct l as [|y l'] using rev_ind.
  - split; [discriminate | intros (f & E); destruct f; discriminate].
  - clear IHl'. unfold tensor_at. cbn [Z.ltb Z.compare]. rewrite app_length. cbn [length]. destruct (Z.leb_spec 0 (-1 + Z.of_nat (length l' + 1))); [|lia]. destruct (Z.ltb_spec (-1 + Z.of_nat (length l' + 1)) (Z.of_nat (length l' + 1))); [|lia]. cbn [andb].
    replace (Z.to_nat (-1 + Z.of_nat (length l' + 1))) with (length l') by lia. rewrite nth_error_app2, Nat.sub_diag by lia. cbn [nth_error]. split.
    + intros [= <-]. exists l'. reflexivity.
    + intros (f & E). apply app_inj_tail in E as [_ ->]. reflexivity.
Qed.
Lemma used_iff ids scores row : tensor_at scores (masked_index ids 0) = Ok row <-> used_scores ids scores row.
Proof.
  unfold used_scores. destruct (masked_spec ids 0) as [(k & K & ->)|(K & ->)]; cbn [Z.add].
  - rewrite tensor_nat. split; [intros H; left; exists k; auto|]. intros [(k' & K' & H)|(H & _)].
    + assert (k' = k) as ->; [|exact H]. destruct K as [K1 K2], K' as [K1' K2']. destruct (Nat.lt_trichotomy k k') as [L|[L|L]]; [exfalso; exact (K2' _ L K1) | congruence | exfalso; exact (K2 _ L K1')].
    + exfalso. apply H. eapply nth_error_In. apply K.
  - rewrite tensor_last. split; [intros H; right; auto|]. intros [(k & (K1 & _) & _)|(_ & H)]; [exfalso; apply K; eapply nth_error_In; exact K1 | exact H].
Qed.
Lemma argmax_spec r : forall pre x at_, nth_error pre at_ = Some x -> (forall j y, nth_error pre j = Some y -> (y <= x)%Z) -> (forall j y, j < at_ -> nth_error pre j = Some y -> (y < x)%Z) ->
  winner (pre ++ r) (argmax_from r (length pre) at_ x).
Proof.
  induction r as [|z r IH]; intros pre x at_ H1 H2 H3; cbn [argmax_from]; [rewrite app_nil_r; exists x; auto|].
  assert (La : at_ < length pre) by (apply nth_error_Some; congruence).
  replace (pre ++ z :: r) with ((pre ++ [z]) ++ r) by (rewrite <- app_assoc; reflexivity). replace (S (length pre)) with (length (pre ++ [z])) by (rewrite app_length; cbn; lia).
  assert (P : forall j y, nth_error (pre ++ [z]) j = Some y -> (j < length pre /\ nth_error pre j = Some y) \/ (j = length pre /\ y = z)).
  { intros j y H. destruct (Nat.lt_ge_cases j (length pre)) as [L|L]; [left; rewrite nth_error_app1 in H by lia; auto|]. rewrite nth_error_app2 in H by lia. destruct (j - length pre) as [|n] eqn:E; cbn in H; [right; split; [lia | congruence] | destruct n; discriminate]. }
  destruct (Z.ltb_spec x z) as [L|L]; apply IH.
  - rewrite nth_error_app2, Nat.sub_diag by lia. reflexivity.
  - intros j y H. apply P in H as [(_ & H)|(_ & ->)]; [specialize (H2 _ _ H); lia | lia].
  - intros j y Hj H. apply P in H as [(_ & H)|(E & _)]; [specialize (H2 _ _ H); lia | lia].
  - rewrite nth_error_app1 by lia. exact H1.
  - intros j y H. apply P in H as [(_ & H)|(_ & ->)]; [eauto | lia].
  - intros j y Hj H. apply P in H as [(_ & H)|(E & _)]; [eauto | lia].
Qed.
Lemma winner_fun row i j : winner row i -> winner row j -> i = j.
Proof.
  intros (x & X1 & X2 & X3) (y & Y1 & Y2 & Y3). destruct (Nat.lt_trichotomy i j) as [L|[L|L]]; [|exact L|].
  - specialize (Y3 _ _ L X1). specialize (X2 _ _ Y1). lia.
  - specialize (X3 _ _ L Y1). specialize (Y2 _ _ X1). lia.
Qed.
Lemma argmax_iff row i : argmax row = Ok i <-> exists k, winner row k /\ i = Z.of_nat k.
Proof.
  unfold argmax. destruct row as [|x r].
  - split; [discriminate | intros (k & (x & H & _) & _); destruct k; discriminate].
  - pose proof (argmax_spec r [x] x 0 eq_refl) as W. cbn [app length] in W. specialize (W ltac:(intros [|[|j]] y H; cbn in H; try discriminate; injection H; lia) ltac:(intros j y Hj; lia)).
    split; [intros [= <-]; eauto|]. intros (k & K & ->). f_equal. f_equal. eapply winner_fun; eassumption.
Qed.

(** The program succeeds exactly if the network can be loaded, the tokenizer can be built, the text is UTF-8, encoding and the network succeed and the id with the best score at the position used can be decoded; it then prints
    two lines: the name of the network and the decoded id. *)
Theorem C120_output : forall E fuel load_net load parse args out,
  mask_main E fuel load_net load parse args = (out, Ok 0%Z) <->
  exists name path text rest net t w t' e scores row best d, args = name :: path :: text :: rest /\ load_net name = Some net /\ construct load parse path [] = Ok t /\ convert_to_string w = Ok text /\
    encode E fuel t w true = (t', Ok e) /\ net (en_ids e) (en_amask e) = Ok scores /\ used_scores (en_ids e) scores row /\ winner row best /\
    decode t' [Z.of_nat best] true = Ok d /\ out = str "loaded the model from " ++ name ++ [10%N] ++ d ++ [10%N].
Proof.
  intros E fuel load_net load parse args out. split.
  - destruct args as [|name rest]; [discriminate|]. cbn [mask_main]. destruct (load_net name) as [net|] eqn:En; [|discriminate].
    destruct (fill E fuel net load parse rest) as [d| | |] eqn:Ef; try discriminate. intros H. assert (out = (str "loaded the model from " ++ name ++ [10%N]) ++ d ++ [10%N]) as -> by congruence. clear H.
    unfold fill in Ef. destruct rest as [|path rest]; [discriminate|]. cbn [bind] in Ef. destruct (construct load parse path []) as [t| | |] eqn:Et; try discriminate. cbn [bind] in Ef.
    destruct rest as [|text rest]; [discriminate|]. cbn [bind] in Ef. destruct (convert_from_string text) as [w| | |] eqn:Ew; try discriminate. cbn [bind] in Ef.
    destruct (encode E fuel t w true) as [t' r] eqn:Ee. destruct r as [e| | |]; try discriminate. cbn [bind] in Ef.
    destruct (net (en_ids e) (en_amask e)) as [scores| | |] eqn:Es; try discriminate. cbn [bind] in Ef. destruct (tensor_at scores (masked_index (en_ids e) 0)) as [row| | |] eqn:Er; try discriminate. cbn [bind] in Ef.
    destruct (argmax row) as [b| | |] eqn:Eb; try discriminate. cbn [bind] in Ef. apply argmax_iff in Eb as (best & Hb & ->). apply used_iff in Er.
    exists name, path, text, rest, net, t, w, t', e, scores, row, best, d. repeat (split; [first [reflexivity | assumption | apply C76_utf8_rejects_everything_else; assumption]|]). rewrite <- !app_assoc. reflexivity.
  - intros (name & path & text & rest & net & t & w & t' & e & scores & row & best & d & -> & En & Et & Ew & Ee & Es & Er & Eb & Ed & ->). cbn [mask_main]. rewrite En. unfold fill. cbn [bind]. rewrite Et. cbn [bind].
    apply C76_utf8_rejects_everything_else in Ew. rewrite Ew. cbn [bind]. rewrite Ee. cbn [bind]. rewrite Es. cbn [bind]. rewrite (proj2 (used_iff _ _ _) Er). cbn [bind].
    rewrite (proj2 (argmax_iff row (Z.of_nat best))) by eauto. cbn [bind]. rewrite Ed. rewrite <- !app_assoc. reflexivity.
Qed.
Print Assumptions C120_output.

(** Which scores are used, and which id wins, is determined; there are scores to use as soon as the network gives one row per id and the encoding is not empty. *)
Theorem C120_once : forall ids scores, (forall r r', used_scores ids scores r -> used_scores ids scores r' -> r = r') /\ (forall row i j, winner row i -> winner row j -> i = j) /\
  (length scores = length ids -> ids <> [] -> exists r, used_scores ids scores r) /\ (forall row, row <> [] -> exists i, winner row i).
Proof.
  intros ids scores. split; [|split; [exact winner_fun|split]].
  - intros r r' H H'. apply used_iff in H, H'. congruence.
  - intros HL Hn. destruct (masked_spec ids 0) as [(k & K & _)|(K & _)].
    + assert (k < length scores) by (rewrite HL; apply nth_error_Some; destruct K; congruence). destruct (nth_error scores k) as [r|] eqn:Er; [exists r; left; eauto | apply nth_error_None in Er; lia].
    + destruct scores as [|r f] using rev_ind; [destruct ids; [congruence | discriminate]|]. exists r. right. eauto.
  - intros row Hr. destruct (argmax row) as [i| | |] eqn:Ea; [apply argmax_iff in Ea as (k & K & _); eauto | destruct row; [congruence | discriminate]..].
Qed.
Print Assumptions C120_once.

(** The two inputs of the network have one entry per position, and when the template and the padding do not use id 103, the position filled in is a position of the text (attention 1) that shows the vocabulary entry with id 103. *)
Theorem C120_position : forall E fuel t m w t' e, pq_ok E -> built_model E (reach_cache E) t -> tz_model t = Some m -> (forall p, tz_post t = Some p -> specials_ok p) ->
  encode E fuel t w true = (t', Ok e) -> length (en_amask e) = length (en_ids e) /\
  forall k, first_at 103 (en_ids e) k -> (forall st, In st (tz_specials t) -> ~ In 103%Z (st_ids st)) -> (forall p, tz_pad t = Some p -> p_id p <> 103%Z) ->
  exists y, nth_error (rows e) k = Some y /\ r_id y = 103%Z /\ r_amask y = 1%Z /\ r_smask y = 0%Z /\ In (r_token y, 103%Z) (model_vocab m).
Proof.
  intros E fuel t m w t' e Hq Hb Hm Hs H. assert (H' : snd (encode E fuel t w true) = Ok e) by (rewrite H; reflexivity). pose proof (C10_parallel_columns E fuel t w true e Hs H') as HP.
  assert (HF : flat_parallel e) by (inversion HP; assumption). split; [destruct HF as (_ & _ & _ & _ & _ & HF); exact HF|].
  intros k [K _] HS HPd. destruct (rows_cols e HF) as (Ei & _). rewrite <- Ei in K. rewrite nth_error_map in K. destruct (nth_error (rows e) k) as [y|] eqn:Ey; [|discriminate]. cbn [option_map] in K. injection K as K.
  exists y. split; [reflexivity|]. split; [exact K|]. assert (Hin : In y (rows e)) by (eapply nth_error_In; exact Ey).
  destruct (C12_masks E fuel t w true e Hs H') as (core & Hc & HM). destruct (HM e y (part_self e) Hin) as [He|[[_ He]|(p & Hp & He)]].
  - destruct He as (A1 & A2 & _). split; [exact A2|]. split; [exact A1|]. destruct (C108_entries E fuel t m w true e Hq Hb Hm Hs H' e y (part_self e) Hin) as [HE|[[_ HE]|(p & Hp & HE)]].
    + rewrite K in HE. destruct HE as [HE|(w0 & _ & _ & HE & _)]; [exact HE | discriminate].
    + destruct HE as (HE & _). rewrite A1 in HE. discriminate.
    + rewrite HE in A1. discriminate.
  - exfalso. destruct He as (_ & _ & _ & _ & st & j & Hst & Hj & _). rewrite K in Hj. apply (HS st Hst). eapply nth_error_In. exact Hj.
  - exfalso. apply (HPd p Hp). rewrite He in K. exact K.
Qed.
Print Assumptions C120_position.

(** *** A case: a BERT vocabulary of 107 entries in which [MASK] has id 103. *)
Definition filler (n : nat) : bytes := [35; 35; N.of_nat (97 + n / 26); N.of_nat (97 + n mod 26)]%N.
Definition mask_vocab : smap Z := (map (fun n => (filler n, Z.of_nat n)) (seq 0 100) ++ [(str "[PAD]", 100); (str "[CLS]", 101); (str "[SEP]", 102); (str "[MASK]", 103); (str "[UNK]", 104); (str "play", 105); (str "chess", 106)])%Z.
Definition mask_config : config :=
  mkConfig None None (Some [mkAt 103 (str "[MASK]") false false false false true; mkAt 101 (str "[CLS]") false false false false true; mkAt 102 (str "[SEP]") false false false false true]) (Some (NBert true true true true)) (Some TBert)
    (Some (CWordPiece (mkWp mask_vocab (str "[UNK]") 100 (str "##")))) (Some (DWordPiece (str "##") true))
    (Some (PTemplate [mkPiece (str "SpecialToken") (str "[CLS]") 0; mkPiece (str "Sequence") (str "A") 0; mkPiece (str "SpecialToken") (str "[SEP]") 0]
                     [mkSpecial (str "[CLS]") [101%Z] [str "[CLS]"]; mkSpecial (str "[SEP]") [102%Z] [str "[SEP]"]])).
(** A network that prefers "chess" (106) after "play" (105) and [SEP] everywhere else. *)
Definition toy_net : network := fun ids mask =>
  Ok (map (fun i => map (fun j => if (nth i (-1 :: ids) 0 =? 105)%Z then (if j =? 106 then 1%Z else 0%Z) else if j =? 102 then 1%Z else 0%Z) (seq 0 107)) (seq 0 (length ids))).
Example C120_case :
  mask_main test_env 20 (fun p => if leqb p (str "net.pt") then Some toy_net else None) (fun p => if leqb p (str "bert/tokenizer.json") then Some (str "{}") else None) (fun _ => Some (render mask_config)) [str "net.pt"; str "bert"; str "Play [MASK]"]
    = (str "loaded the model from net.pt" ++ [10%N] ++ str "chess" ++ [10%N], Ok 0%Z) /\
  (** without a mask: the prediction for the last position, here the special token [SEP], which is skipped *)
  mask_main test_env 20 (fun p => if leqb p (str "net.pt") then Some toy_net else None) (fun p => if leqb p (str "bert/tokenizer.json") then Some (str "{}") else None) (fun _ => Some (render mask_config)) [str "net.pt"; str "bert"; str "Play chess"]
    = (str "loaded the model from net.pt" ++ [10%N] ++ [10%N], Ok 0%Z) /\
  mask_main test_env 20 (fun _ => None) (fun _ => None) (fun _ => None) [str "net.pt"] = ([], Ok (-1)%Z) /\ first_at 103 [101; 105; 103; 102]%Z 2 /\ winner [0; 3; 1; 3]%Z 1.
Proof.
  split; [vm_compute; reflexivity|]. split; [vm_compute; reflexivity|]. split; [reflexivity|]. split.
  - split; [reflexivity|]. intros [|[|j]] Hj; cbn; [discriminate | discriminate | lia].
  - exists 3%Z. split; [reflexivity|]. split; [intros [|[|[|[|[|j]]]]] y H; cbn in H; try discriminate; injection H as <-; lia | intros [|j] y Hj H; [cbn in H; injection H as <-; lia | lia]].
Qed.
