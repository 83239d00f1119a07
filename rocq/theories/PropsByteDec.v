(** C127: decoding any ids with the ByteLevel decoder. *)
From Verif Require Import Env Base BaseFacts Unicode UnicodeProofs Common Utils Decoder PostProcessor Normalizer PreTokenizer WordPiece Bpe AddedVocab Tokenizer Spec DecSpec DecProofs UtfSpec PropsUtf RepairSpec PropsRepair AvSpec AsciiSpec HistSpec HistProofs PropsHistory ByteDecSpec.
From Coq Require Import ZifyBool ZifyNat ZifyN.
Import ListNotations.

Lemma char_low c : byte_level_char c = (c mod 256)%N.
Proof.
  unfold byte_level_char. set (k := (c mod 256)%N). assert (Hk : (k < 256)%N) by (unfold k; apply N.mod_lt; discriminate). clearbody k. clear c.
  assert (S : forallb (fun k => match sfind [k] char_bytes with Some x => x =? k | None => true end)%N all_bytes = true) by (vm_compute; reflexivity).
  rewrite forallb_forall in S. specialize (S k). assert (HI : In k all_bytes). { unfold all_bytes. apply in_map_iff. exists (N.to_nat k). split; [apply N2Nat.id | apply in_seq; lia]. }
  specialize (S HI). destruct (sfind [k] char_bytes) as [x|]; [apply N.eqb_eq; exact S | reflexivity].
Qed.
Lemma nth_app_shift {A} (p q : list A) i : nth_error (p ++ q) (length p + i) = nth_error q i.
Proof. rewrite nth_error_app2 by lia. f_equal. lia. Qed.
Lemma char32_app p u i : (forall x, In x p -> is_lead x = false) \/ p = [] \/ (exists a y, p = a ++ [y] /\ is_lead y = false) -> i < length u ->
  char32_at (p ++ u) (length p + i) = char32_at u i.
Proof.
  intros Hp Hi. unfold char32_at. rewrite nth_app_shift. replace (S (length p + i)) with (length p + S i) by lia. rewrite nth_app_shift.
  destruct (nth_error u i) as [x|] eqn:Ex; [|reflexivity]. destruct (is_lead x); [reflexivity|]. destruct (is_trail x); [|reflexivity].
  destruct i as [|i].
  - rewrite Nat.add_0_r. destruct p as [|y0 p0] eqn:EP; [reflexivity|]. cbn [length].
    assert (HN : exists y, nth_error ((y0 :: p0) ++ u) (length p0) = Some y /\ is_lead y = false).
    { destruct Hp as [Hp|[Hp|(a & y & Hp & Hy)]]; [|discriminate|].
      - rewrite nth_error_app1 by (cbn; lia). destruct (nth_error (y0 :: p0) (length p0)) as [y|] eqn:E; [|apply nth_error_None in E; cbn in E; lia]. exists y. split; [reflexivity|]. apply Hp. apply nth_error_In in E. exact E.
      - exists y. split; [|exact Hy]. assert (HL : length p0 = length a). { apply (f_equal (@length _)) in Hp. rewrite app_length in Hp. cbn in Hp. lia. } rewrite Hp, HL, <- app_assoc. rewrite nth_error_app2, Nat.sub_diag by lia. reflexivity. }
    destruct HN as (y & -> & ->). reflexivity.
  - rewrite Nat.add_succ_r. rewrite nth_app_shift. reflexivity.
Qed.
Lemma enc_ends c : valid_cp c = true -> exists a y, utf16_enc c = a ++ [y] /\ is_lead y = false.
Proof.
  intros V. unfold utf16_enc. unfold valid_cp, is_surrogate in V. destruct (c <? 0x10000)%N eqn:E.
  - exists [], c. split; [reflexivity|]. unfold is_lead. lia.
  - eexists [_], _. split; [reflexivity|]. unfold is_lead. pose proof (N.mod_lt (c - 0x10000) 0x400). lia.
Qed.
Lemma char32_all s : forallb valid_cp s = true -> let u := flat_map utf16_enc s in
  map (fun i => byte_level_char (char32_at u i)) (seq 0 (length u)) = flat_map low_bytes s.
Proof.
  intros V. cbn zeta. 
  assert (G : forall p, p = [] \/ (exists a y, p = a ++ [y] /\ is_lead y = false) ->
    map (fun i => byte_level_char (char32_at (p ++ flat_map utf16_enc s) i)) (seq (length p) (length (flat_map utf16_enc s))) = flat_map low_bytes s).
  { induction s as [|c s IH]; intros p Hp; [reflexivity|]. cbn [forallb] in V. apply andb_prop in V as [Vc Vs]. cbn [flat_map]. rewrite app_length, seq_app, map_app. f_equal.
    - clear IH. unfold low_bytes, utf16_enc. destruct (c <? 0x10000)%N eqn:Ec.
      + cbn [length seq map app]. rewrite char_low. do 2 f_equal. rewrite <- (Nat.add_0_r (length p)) at 1. rewrite char32_app; [|right; exact Hp | cbn [length]; lia]. unfold char32_at. cbn [nth_error].
        replace (is_lead c) with false by (unfold valid_cp, is_surrogate, is_lead in *; lia). replace (is_trail c) with false by (unfold valid_cp, is_surrogate, is_trail in *; lia). reflexivity.
      + cbn [length seq map app]. rewrite !char_low. pose proof (N.mod_lt (c - 0x10000) 0x400 ltac:(discriminate)) as HM. unfold valid_cp, is_surrogate in Vc.
        set (x := (0xD800 + (c - 0x10000) / 0x400)%N). set (y := (0xDC00 + (c - 0x10000) mod 0x400)%N).
        assert (HQ : (c - 0x10000 = 0x400 * ((c - 0x10000) / 0x400) + (c - 0x10000) mod 0x400)%N) by (apply N.div_mod; discriminate).
        assert (Hx : is_lead x = true) by (unfold is_lead, x; lia). assert (Hy : is_trail y = true) by (unfold is_trail, y; lia). assert (Hy' : is_lead y = false) by (unfold is_lead, y; lia).
        assert (HC : pair_cp x y = c) by (unfold pair_cp, x, y; lia).
        do 2 f_equal; [|f_equal; f_equal].
        * rewrite <- (Nat.add_0_r (length p)) at 1. rewrite char32_app; [|right; exact Hp | cbn [length]; lia]. unfold char32_at. cbn [nth_error]. rewrite Hx, Hy. exact HC.
        * replace (S (length p)) with (length p + 1) by lia. rewrite char32_app; [|right; exact Hp | cbn [length]; lia]. unfold char32_at. cbn [nth_error]. rewrite Hy', Hy, Hx. exact HC.
    - replace (length p + length (utf16_enc c)) with (length (p ++ utf16_enc c)) by apply app_length. rewrite app_assoc. apply IH; [exact Vs|]. right. destruct (enc_ends c Vc) as (a & y & E & Hy). exists (p ++ a), y. rewrite E, app_assoc. auto. }
  exact (G [] (or_introl eq_refl)).
Qed.
Lemma token_low t s : repaired8 t s -> (let u := from_utf8 t in map (fun i => byte_level_char (char32_at u i)) (seq 0 (length u))) = flat_map low_bytes s.
Proof.
  intros H. destruct (C118_repair_utf8 t) as (s' & H' & HU & HS). rewrite (HU s H) in *. clear HU H'. apply spelled16 in HS as [V ->]. apply char32_all. exact V.
Qed.
Lemma chain_low kept chars : Forall2 repaired8 kept chars -> byte_level_decode kept = [flat_map low_bytes (concat chars)].
Proof.
  intros H. unfold byte_level_decode. f_equal. induction H as [|t s l l' H1 _ IH]; [reflexivity|]. cbn [flat_map concat]. rewrite flat_map_app, <- IH. f_equal. apply token_low. exact H1.
Qed.

(** ** C127 *)
(** Ids that name the texts [texts], of which [kept] go to the decoder; [chars] are the characters of these texts (U+FFFD where a text is not UTF-8). The result is the low bytes of their code points. *)
Theorem C127_low_bytes : forall v ops av t m, dense v -> v <> [] -> history v ops av ->
  tz_av t = Some av -> tz_model t = Some m -> model_vocab m = v -> tz_dec t = Some DByteLevel ->
  forall ids texts skip kept chars, Forall2 (denotes v av) ids texts -> without (fun s => skip = true /\ registered_special ops s) texts kept -> Forall2 repaired8 kept chars ->
  decode t ids skip = Ok (flat_map low_bytes (concat chars)).
Proof.
  intros v ops av t m Hd Hne H Ha Hm Hv Hdec ids texts skip kept chars HF HW HR. rewrite (C21_decode v ops av t m DByteLevel Hd Hne H Ha Hm Hv Hdec ids texts skip kept HF HW).
  cbn [decode_chain]. rewrite (chain_low kept chars HR). cbn [bind concat]. rewrite app_nil_r. reflexivity.
Qed.
Print Assumptions C127_low_bytes.
(** every text has characters, exactly one list of them: the theorem above always applies *)
Theorem C127_applies : forall kept, exists chars, Forall2 repaired8 kept chars /\ forall chars', Forall2 repaired8 kept chars' -> chars' = chars.
Proof.
  induction kept as [|t l (chars & IH & U)]; [exists []; split; [constructor | intros c H; inversion H; reflexivity]|].
  destruct (C118_repair_utf8 t) as (s & HS & US & _). exists (s :: chars). split; [constructor; assumption|]. intros c H. inversion H as [|? s' ? c' H1 H2]; subst. rewrite (US _ H1), (U _ H2). reflexivity.
Qed.
Print Assumptions C127_applies.

(** ASCII texts come back as they are, one after the other, without any space between them *)
Theorem C127_ascii : forall v ops av t m, dense v -> v <> [] -> history v ops av ->
  tz_av t = Some av -> tz_model t = Some m -> model_vocab m = v -> tz_dec t = Some DByteLevel ->
  forall ids texts skip kept, Forall2 (denotes v av) ids texts -> without (fun s => skip = true /\ registered_special ops s) texts kept -> Forall plain kept ->
  decode t ids skip = Ok (concat kept).
Proof.
  intros v ops av t m Hd Hne H Ha Hm Hv Hdec ids texts skip kept HF HW HP.
  assert (G : forall s, plain s -> repaired8 s s /\ flat_map low_bytes s = s).
  { induction 1 as [|c s Hc _ (IH1 & IH2)]; [split; [constructor | reflexivity]|]. split.
    - change (c :: s) with ([c] ++ s) at 1. apply r8_char; [|exact IH1]. assert (V : valid_cp c = true) by (unfold valid_cp, is_surrogate; lia). pose proof (utf8_row_complete c V) as K. unfold utf8_enc in K. replace (c <? 0x80)%N with true in K by lia. exact K.
    - cbn [flat_map]. rewrite IH2. unfold low_bytes. replace (c <? 0x10000)%N with true by lia. rewrite N.mod_small by lia. reflexivity. }
  rewrite (C127_low_bytes v ops av t m Hd Hne H Ha Hm Hv Hdec ids texts skip kept kept HF HW).
  - f_equal. clear HF HW. induction HP as [|s l Hs _ IH]; [reflexivity|]. cbn [concat]. rewrite flat_map_app, IH. f_equal. apply G. exact Hs.
  - clear HF HW. induction HP as [|s l Hs _ IH]; constructor; [apply G; exact Hs | exact IH].
Qed.
Print Assumptions C127_ascii.
(** Refuted: the id of a token does not decode to the token's text once the text is not ASCII. The added token e-acute (C3 A9) becomes the single byte E9, which is not UTF-8. *)
Definition bd_ops : list added_token := [mkAt 0 [0xC3; 0xA9]%N false false false true false].
Definition bd_vocab : smap Z := [(str "a", 0); (str "b", 1)]%Z.
Definition bd_t : tokenizer := mkTz None None (Some (new_added_vocab [])) None None (Some (MWordPiece (mkWp bd_vocab (str "a") 100 (str "##")))) (Some DByteLevel) None.
Theorem C127_added_text_refuted : exists t0 t, finish_construction bd_t = Ok t0 /\ add_tokens false t0 bd_ops = Ok (t, 1%Z) /\
  exists av, tz_av t = Some av /\ dense bd_vocab /\ history bd_vocab bd_ops av /\
  Forall2 (denotes bd_vocab av) [0; 2; 1]%Z [str "a"; [0xC3; 0xA9]%N; str "b"] /\ Forall2 repaired8 [str "a"; [0xC3; 0xA9]%N; str "b"] [[97]; [0xE9]; [98]]%N /\
  decode t [0; 2; 1]%Z false = Ok [97; 0xE9; 98]%N.
Proof.
  destruct (av_add_tokens true (new_added_vocab []) (Some bd_vocab) []) as [[av0 n0]| | |] eqn:E0; try (vm_compute in E0; discriminate).
  destruct (av_add_tokens false av0 (Some bd_vocab) bd_ops) as [[av n]| | |] eqn:E; try (vm_compute in E0; injection E0 as <- <-; vm_compute in E; discriminate).
  assert (HH : history bd_vocab bd_ops av) by (change bd_ops with ([] ++ bd_ops); eapply h_add; [eapply h_new; exact E0 | exact E]).
  exists (set_av bd_t (Some av0)), (set_av bd_t (Some av)). vm_compute in E0. injection E0 as <- <-. vm_compute in E. injection E as <- <-. split; [vm_compute; reflexivity|]. split; [vm_compute; reflexivity|]. eexists. split; [reflexivity|].
  assert (Hd : dense bd_vocab) by (split; [cbn; repeat (constructor; [cbn; intuition discriminate|]); constructor | split; [cbn; repeat (constructor; [cbn; intuition discriminate|]); constructor | repeat (apply Forall_cons; [cbn; lia|]); apply Forall_nil]]).
  split; [exact Hd|]. split; [exact HH|].
  assert (HF : Forall2 repaired8 [str "a"; [0xC3; 0xA9]%N; str "b"] [[97]; [0xE9]; [98]]%N).
  { assert (O : forall c b, valid_cp c = true -> utf8_enc c = b -> repaired8 b [c]). { intros c b V <-. rewrite <- (app_nil_r (utf8_enc c)). apply r8_char; [apply utf8_row_complete; exact V | constructor]. }
    constructor; [apply O; reflexivity|]. constructor; [apply O; reflexivity|]. constructor; [apply O; reflexivity|]. constructor. }
  split; [|split; [exact HF | vm_compute; reflexivity]].
  assert (NA : forall i, (i = 0 \/ i = 1)%Z -> forall t0, sfind t0 [([0xC3; 0xA9]%N, 2%Z)] <> Some i).
  { intros i Hi t0. unfold sfind. cbn [find fst]. destruct (leqb _ _); cbn; [|discriminate]. intros K. injection K as K. lia. }
  constructor; [right; split; [intros t0; apply (NA 0%Z ltac:(lia) t0) | cbn; auto]|]. constructor; [left; reflexivity|]. constructor; [right; split; [intros t0; apply (NA 1%Z ltac:(lia) t0) | cbn; auto]|]. constructor.
Qed.
Print Assumptions C127_added_text_refuted.
