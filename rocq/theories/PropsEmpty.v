(** C64: encoding the empty text. *)
From Verif Require Import Base BaseFacts Unicode UnicodeProofs Common Utils PostProcessor Normalizer PreTokenizer WordPiece Bpe AddedVocab Decoder Tokenizer
  Spec EncFacts PreSpec PreProofs NormSpec NormProofs AvSpec AvProofs ExtractProofs TzSpec TzProofs WpProofs PropsEncode EmptySpec Env.
From Coq Require Import ZifyBool ZifyNat ZifyN.

Definition empties (n : nat) : pretok := mkPt (new_nstring []) (repeat (mkSplit [] (0, 0) []) n).
Lemma split_empties fn b ps : split_normalized (mkSplit [] (0, 0) []) fn b = ps -> forall n,
  split_all fn b (repeat (mkSplit [] (0, 0) []) n) = match n with O => Ok [] | S _ => l <- ps ;; Ok (concat (repeat l n)) end.
Proof.
  intros H. induction n as [|n IH]; [reflexivity|]. cbn [repeat split_all sp_tokens is_nil]. rewrite H, IH. destruct ps as [l| | |]; cbn [bind]; [|destruct n; reflexivity..].
  destruct n as [|n]; cbn [bind repeat concat]; reflexivity.
Qed.
Lemma concat_repeat_nil {A} n : concat (repeat (@nil A) n) = [].
Proof. induction n; [reflexivity | assumption]. Qed.
Lemma concat_repeat_one {A} (x : A) n : concat (repeat [x] n) = repeat x n.
Proof. induction n as [|n IH]; [reflexivity|]. cbn [repeat concat app]. rewrite IH. reflexivity. Qed.
Lemma pt_split_empties fn b ps n : split_normalized (mkSplit [] (0, 0) []) fn b = ps ->
  pt_split fn b (empties n) = match n with O => Ok (empties 0) | S _ => l <- ps ;; Ok (mkPt (new_nstring []) (concat (repeat l n))) end.
Proof. intros H. unfold pt_split, empties. cbn [pt_splits pt_norm]. rewrite (split_empties fn b ps H). destruct n as [|n]; [reflexivity|]. destruct ps; reflexivity. Qed.
Lemma gone_empties fn b n : split_normalized (mkSplit [] (0, 0) []) fn b = Ok [] -> pt_split fn b (empties n) = Ok (empties 0).
Proof. intros H. rewrite (pt_split_empties _ _ _ n H). destruct n; [reflexivity|]. cbn [bind]. rewrite concat_repeat_nil. reflexivity. Qed.
Lemma kept_empties fn b n : split_normalized (mkSplit [] (0, 0) []) fn b = Ok [mkSplit [] (0, 0) []] -> pt_split fn b (empties n) = Ok (empties n).
Proof. intros H. rewrite (pt_split_empties _ _ _ n H). destruct n; [reflexivity|]. cbn [bind]. rewrite concat_repeat_one. reflexivity. Qed.
Lemma bert_empties E n : bert_pre_tokenize E (empties n) = Ok (empties 0).
Proof. unfold bert_pre_tokenize. rewrite gone_empties by reflexivity. cbn [bind]. apply gone_empties. reflexivity. Qed.
Lemma byte_level_empties E aps rx n : byte_level_pre_tokenize E aps rx (empties n) = (if aps then Throw OutOfRange else Ok (empties (if rx then 0 else n))).
Proof.
  unfold byte_level_pre_tokenize. destruct aps; [reflexivity|]. cbn [bind]. destruct rx.
  - rewrite gone_empties by reflexivity. reflexivity.
  - rewrite kept_empties by reflexivity. cbn [bind]. unfold empties at 1. cbn [pt_splits]. assert (G : forall f : split -> res split, f (mkSplit [] (0, 0) []) = Ok (mkSplit [] (0, 0) []) -> mapM f (repeat (mkSplit [] (0, 0) []) n) = Ok (repeat (mkSplit [] (0, 0) []) n)).
    { intros f Hf. induction n as [|n IH]; [reflexivity|]. cbn [repeat mapM]. rewrite Hf. cbn [bind]. rewrite IH. reflexivity. }
    rewrite G by reflexivity. reflexivity.
Qed.
Lemma split_pre_empties E pat b n : honest_on_empty E -> split_pre_tokenize E pat b (empties n) = (m <- left_of_empty E (TSplit pat b false) n ;; Ok (empties m)).
Proof.
  intros HE. unfold split_pre_tokenize. cbn [left_of_empty]. change (str "\s+") with pat_space. change (str "\p{P}") with pat_punct. change (str "'s|'") with byte_level_pattern. destruct n as [|n]; [reflexivity|]. change (S n =? 0) with false. cbn iota.
  assert (G : forall ms, (forall u, u = [] -> find_matches E pat u = ms) -> split_normalized (mkSplit [] (0, 0) []) (find_matches E pat) b = split_normalized (mkSplit [] (0, 0) []) (fun _ => ms) b).
  { intros ms H. unfold split_normalized. cbn [sp_text]. rewrite H by reflexivity. reflexivity. }
  destruct (leqb pat pat_space) eqn:E1; [cbn [orb bind]; apply gone_empties; rewrite (G (Ok [])) by (intros u ->; unfold find_matches, regex_matches; rewrite E1; reflexivity); destruct b; reflexivity|].
  destruct (leqb pat pat_punct) eqn:E2; [cbn [orb bind]; apply gone_empties; rewrite (G (Ok [])) by (intros u ->; unfold find_matches, regex_matches; rewrite E1, E2; reflexivity); destruct b; reflexivity|].
  destruct (leqb pat byte_level_pattern) eqn:E3; [cbn [orb bind]; apply gone_empties; rewrite (G (Ok [])) by (intros u ->; unfold find_matches, regex_matches; rewrite E1, E2, E3; reflexivity); destruct b; reflexivity|].
  cbn [orb]. destruct (e_icu_matches E pat []) as [l|] eqn:E4.
  - destruct (HE pat l E4) as [-> | ->]; cbn [bind].
    + apply gone_empties. rewrite (G (Ok [])) by (intros u ->; unfold find_matches, regex_matches; rewrite E1, E2, E3, E4; reflexivity). destruct b; reflexivity.
    + destruct b; [apply gone_empties | apply kept_empties]; rewrite (G (Ok [((0, 0), true)])) by (intros u ->; unfold find_matches, regex_matches; rewrite E1, E2, E3, E4; reflexivity); reflexivity.
  - cbn [bind]. rewrite (pt_split_empties _ _ (Undef NullDeref)); [reflexivity|]. rewrite (G (Undef NullDeref)) by (intros u ->; unfold find_matches, regex_matches; rewrite E1, E2, E3, E4; reflexivity). reflexivity.
Qed.
Lemma pre_empties E (HE : honest_on_empty E) : forall t n, pre_tokenize E t (empties n) = (m <- left_of_empty E t n ;; Ok (empties m)).
Proof.
  fix IH 1. intros t n. destruct t as [|pat b inv|aps rx|l].
  - apply bert_empties.
  - apply split_pre_empties. exact HE.
  - cbn [pre_tokenize left_of_empty]. rewrite byte_level_empties. destruct aps, rx; reflexivity.
  - cbn [pre_tokenize left_of_empty]. revert n. induction l as [|q l IHl]; intros n; [reflexivity|]. rewrite (IH q n). destruct (left_of_empty E q n) as [m| | |]; cbn [bind]; try reflexivity. apply IHl.
Qed.

(** Without added tokens: whatever the model, the empty text has the empty encoding if no piece is left, and no encoding otherwise. *)
Theorem C64_empty_text : forall E t, honest_on_empty E -> tz_av t = None ->
  match left_by E (tz_pre t) with
  | Ok 0 => text_encoding E t [] = Ok empty_enc
  | Ok (S _) => forall e, text_encoding E t [] <> Ok e
  | Throw x => text_encoding E t [] = Throw x
  | Undef u => text_encoding E t [] = Undef u
  | Diverge => False
  end.
Proof.
  intros E t HE Hav.
  assert (P : prepare E t [] = (m <- left_by E (tz_pre t) ;; Ok (None, empties m))).
  { unfold prepare. rewrite Hav. cbn [bind new_pretok convert_to_string forallb new_nstring ns_text ns_tables from_utf32 flat_map length utf8_encs]. change (mkPt _ [mkSplit [] (0, 0) []]) with (empties 1).
    unfold left_by. destruct (tz_pre t) as [pt|]; [|reflexivity]. rewrite (pre_empties E HE). destruct (left_of_empty E pt 1); reflexivity. }
  assert (D : left_by E (tz_pre t) <> Diverge).
  { unfold left_by. destruct (tz_pre t) as [pt|]; [|discriminate]. clear P. generalize 1 as n. revert pt. fix IH 1. intros [|pat b inv|aps rx|l] n.
    - discriminate.
    - cbn [left_of_empty]. destruct (n =? 0); [discriminate|]. destruct (_ || _); [discriminate|]. destruct (e_icu_matches E pat []) as [[|? ?]|]; [discriminate| |discriminate]. destruct b; discriminate.
    - destruct aps, rx; discriminate.
    - cbn [left_of_empty]. revert n. induction l as [|q l IHl]; intros n; [discriminate|]. destruct (left_of_empty E q n) eqn:Eq; cbn [bind]; try discriminate; [apply IHl | exact (False_ind _ (IH q n Eq))]. }
  unfold text_encoding. rewrite P. destruct (left_by E (tz_pre t)) as [[|n]|x|u|]; cbn [bind]; [| |reflexivity|reflexivity|congruence].
  - destruct (tz_model t) as [[w|b c]|]; reflexivity.
  - intros e H. apply bind_ok in H as (p' & Hm & Hi). unfold into_encoding in Hi.
    assert (Q : pt_norm p' = new_nstring [] /\ exists s r, pt_splits p' = s :: r /\ sp_off s = (0, 0)).
    { destruct (tz_model t) as [[w|b c]|].
      - cbn [model_tokenize snd] in Hm. unfold wp_tokenize in Hm. apply bind_ok in Hm as (l & Hl & Hp). injection Hp as <-. split; [reflexivity|]. cbn [pt_splits empties repeat mapM] in *.
        apply bind_ok in Hl as (x & Hx & Hl). apply bind_ok in Hl as (r & _ & Hl). injection Hl as <-. apply bind_ok in Hx as (ts & _ & Hx). injection Hx as <-. do 2 eexists. split; reflexivity.
      - cbn [model_tokenize snd] in Hm. unfold bpe_tokenize in Hm. destruct (bpe_splits E b c (pt_splits (empties (S n)))) as [c' r] eqn:Eb. cbn [snd] in Hm. apply bind_ok in Hm as (l & Hl & Hp). injection Hp as <-. split; [reflexivity|].
        cbn [pt_splits empties repeat bpe_splits] in Eb |- *. destruct (bpe_word E b c (sp_text (mkSplit [] (0, 0) []))) as [c1 [ts| | |]]; [|injection Eb as _ <-; discriminate..].
        destruct (bpe_splits E b c1 (repeat (mkSplit [] (0, 0) []) n)) as [c2 rest]. injection Eb as _ <-. apply bind_ok in Hl as (x & _ & Hl). injection Hl as <-. do 2 eexists. split; reflexivity.
      - injection Hm as <-. split; [reflexivity|]. do 2 eexists. split; reflexivity. }
    destruct Q as (Q1 & s & r & Q2 & Q3). rewrite Q1, Q2 in Hi. cbn [into_rows] in Hi. unfold split_base in Hi. rewrite Q3 in Hi. discriminate.
Qed.
Print Assumptions C64_empty_text.

(** Exactly when the empty text has an encoding, whatever the added tokens. *)
Theorem C64_encodable_iff : forall E t, honest_on_empty E ->
  ((exists e, text_encoding E t [] = Ok e) <-> tz_av t = None /\ left_by E (tz_pre t) = Ok 0).
Proof.
  intros E t HE. split.
  - intros (e & H). destruct (tz_av t) as [av|] eqn:Hav.
    + exfalso. assert (Hn : exists ns, run_norm E (tz_norm t) [] = Ok ns).
      { revert H. unfold text_encoding, prepare. rewrite Hav. cbn [bind new_pretok convert_to_string forallb new_nstring ns_text ns_tables from_utf32 flat_map length utf8_encs].
        unfold extract_and_normalize. cbn [bind new_pretok convert_to_string forallb new_nstring ns_text ns_tables from_utf32 flat_map length utf8_encs pt_norm pt_splits].
        unfold av_find_matches. change (from_utf8 []) with (@nil N). cbn [length raw_matches resolve_matches Nat.eqb bind raw_splits normalize_splits sp_tokens sp_text sp_off fst snd].
        change (convert_from_string []) with (@Ok wstr []). cbn [bind]. fold (run_norm E (tz_norm t) []). destruct (run_norm E (tz_norm t) []) as [ns| | |]; cbn [bind]; [eauto | discriminate..]. }
      pose proof (C64_empty_text_refuted E 0 (mkTz None None (tz_av t) (tz_norm t) (tz_pre t) (tz_model t) (tz_dec t) None) true av Hav Hn) as R.
      rewrite encode_text in R. change (text_encoding E (mkTz None None (tz_av t) (tz_norm t) (tz_pre t) (tz_model t) (tz_dec t) None) []) with (text_encoding E t []) in R. rewrite H in R. discriminate.
    + split; [reflexivity|]. pose proof (C64_empty_text E t HE Hav) as G. destruct (left_by E (tz_pre t)) as [[|n]|x|u|]; [reflexivity|exfalso; eapply G; exact H|congruence|congruence|contradiction].
  - intros [Hav Hl]. pose proof (C64_empty_text E t HE Hav) as G. rewrite Hl in G. eauto.
Qed.
Print Assumptions C64_encodable_iff.
(** Then encode post-processes the empty encoding; otherwise it returns nothing. *)
Theorem C64_encode : forall E fuel t add, honest_on_empty E ->
  (tz_av t = None /\ left_by E (tz_pre t) = Ok 0 -> snd (encode E fuel t [] add) = do_post_process fuel t empty_enc add) /\
  (~ (tz_av t = None /\ left_by E (tz_pre t) = Ok 0) -> forall r, snd (encode E fuel t [] add) <> Ok r).
Proof.
  intros E fuel t add HE. split.
  - intros [Hav Hl]. rewrite encode_text. pose proof (C64_empty_text E t HE Hav) as G. rewrite Hl in G. rewrite G. reflexivity.
  - intros H r Hr. apply H. apply (C64_encodable_iff E t HE). destruct (encode_split _ _ _ _ _ _ Hr) as (core & Hc & _). eauto.
Qed.
Print Assumptions C64_encode.
Example C64_cases : left_by test_env None = Ok 1 /\ left_by test_env (Some TBert) = Ok 0 /\ left_by test_env (Some (TSequence [TByteLevel false false; TBert])) = Ok 0 /\
  left_by test_env (Some (TSequence [TBert; TByteLevel true true])) = Throw OutOfRange.
Proof. repeat split. Qed.
Example C64_honest : honest_on_empty test_env.
Proof. intros pat l H. cbn in H. destruct l; [left; reflexivity | discriminate]. Qed.
