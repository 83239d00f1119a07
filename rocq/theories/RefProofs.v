(** Facts about the reference tokenization. *)
From Verif Require Import Base BaseFacts Unicode UnicodeProofs Common Normalizer PreTokenizer WordPiece Tokenizer NormSpec NormProofs ExtractProofs Spec PreSpec PreProofs TzSpec TzProofs WpSpec WpProofs
  OffSpec OffProofs RefSpec.
From Coq Require Import ZifyBool ZifyNat.

(** ** The reference is total and deterministic *)
Lemma bert_split_total sp pu : forall n s pos, length s <= n -> exists l, bert_split sp pu pos s l.
Proof.
  induction n as [|n IH]; intros s pos Hn; [destruct s; [exists []; constructor | cbn in Hn; lia]|].
  destruct s as [|c s]; [exists []; constructor|]. cbn [length] in Hn. destruct (sp c) eqn:Es.
  - destruct (IH s (pos + units [c])) as (l & Hl); [lia|]. exists l. constructor; assumption.
  - destruct (pu c) eqn:Ep; [destruct (IH s (pos + units [c])) as (l & Hl); [lia|]; eexists; apply bs_punct; eassumption|].
    assert (K : exists x r, s = x ++ r /\ Forall (fun c => sp c = false /\ pu c = false) x /\ match r with [] => True | c :: _ => sp c = true \/ pu c = true end).
    { clear. induction s as [|d s (x & r & -> & H1 & H2)]; [exists [], []; repeat split; constructor|]. destruct (sp d) eqn:Es; [exists [], (d :: x ++ r); repeat split; [constructor | auto]|].
      destruct (pu d) eqn:Ep; [exists [], (d :: x ++ r); repeat split; [constructor | auto]|]. exists (d :: x), r. split; [reflexivity|]. split; [constructor; auto | exact H2]. }
    destruct K as (x & r & -> & H1 & H2). destruct (IH r (pos + units (c :: x))) as (l & Hl); [rewrite app_length in Hn; lia|].
    exists ((pos, c :: x) :: l). change (c :: x ++ r) with ((c :: x) ++ r). apply bs_word; [discriminate | constructor; auto | exact H2 | exact Hl].
Qed.
Lemma maximal_unique (P : N -> Prop) : forall (x y r s : wstr), Forall P x -> Forall P y -> match r with [] => True | c :: _ => ~ P c end -> match s with [] => True | c :: _ => ~ P c end ->
  x ++ r = y ++ s -> x = y /\ r = s.
Proof.
  induction x as [|a x IH]; intros [|b y] r s Hx Hy Hr Hs E; cbn [app] in E.
  - auto.
  - subst r. inversion Hy; contradiction.
  - subst s. inversion Hx; contradiction.
  - injection E as -> E. inversion Hx; inversion Hy; subst. destruct (IH y r s) as [-> ->]; auto.
Qed.
Lemma bert_split_fun sp pu pos s l : bert_split sp pu pos s l -> forall l', bert_split sp pu pos s l' -> l = l'.
Proof.
  induction 1 as [pos|pos c s l Hs H IH|pos c s l Hs Hp H IH|pos x s l Hx HF Hm H IH]; intros l' H'.
  - inversion H' as [| | |? x ? ? Hx]; subst; [reflexivity|]. destruct x; [congruence | discriminate].
  - inversion H' as [| | |? x ? ? Hx HF]; subst; [apply IH; assumption | congruence|]. destruct x as [|d x]; [congruence|]. inversion HF as [|? ? [? ?] ?]; cbn [app] in H3; congruence.
  - inversion H' as [| | |? x ? ? Hx HF]; subst; [congruence | f_equal; apply IH; assumption|]. destruct x as [|d x]; [congruence|]. inversion HF as [|? ? [? ?] ?]; cbn [app] in H3; congruence.
  - destruct x as [|d x]; [congruence|]. inversion HF as [|? ? [Hd1 Hd2] HF']; subst. inversion H' as [|? ? ? ? Hs|? ? ? ? Hs Hp|? y s' ? Hy HF2 Hm2 H2 E1]; subst; try congruence.
    destruct (maximal_unique (fun c => sp c = false /\ pu c = false) y (d :: x) s' s) as [-> ->]; auto.
    + destruct s'; [exact I|]. intros [A B]. destruct Hm2; congruence.
    + destruct s; [exact I|]. intros [A B]. destruct Hm; congruence.
    + f_equal. apply IH. assumption.
Qed.
Lemma greedy_fun v p u : forall a ts, greedy v p u a ts -> forall ts', greedy v p u a ts' -> ts = ts'.
Proof.
  induction 1 as [|a k i ts Hk Hl Hf Hm H IH]; intros ts' H'.
  - inversion H' as [|? k ? ? Hk Hl]; subst; [reflexivity | lia].
  - inversion H' as [|? k' i' ? Hk' Hl' Hf' Hm' H2]; subst; [lia|]. assert (k = k').
    { destruct (Nat.lt_trichotomy k k') as [L|[L|L]]; [|exact L|]; [rewrite Hm in Hf' by lia | rewrite Hm' in Hf by lia]; discriminate. }
    subst k'. rewrite Hf in Hf'. injection Hf' as <-. f_equal. apply IH. assumption.
Qed.
Lemma word_tokens_fun w x ts ts' : word_tokens w x ts -> word_tokens w x ts' -> ts = ts'.
Proof.
  intros [[H1 H2]|[H1 H2]] [[K1 K2]|[K1 K2]].
  - eapply greedy_fun; eassumption.
  - destruct K1 as [K1|K1]; [lia | destruct (K1 _ H2)].
  - destruct H1 as [H1|H1]; [lia | destruct (H1 _ K2)].
  - congruence.
Qed.
Lemma words_rows_fun w i l rs : words_rows w i l rs -> forall rs', words_rows w i l rs' -> rs = rs'.
Proof.
  induction 1 as [|i pos x l ts rs Ht H IH]; intros rs' H'; inversion H' as [|? ? ? ? ts' rs'' Ht' H2]; subst; [reflexivity|]. rewrite (word_tokens_fun _ _ _ _ Ht Ht'). f_equal. apply IH. assumption.
Qed.
Lemma reference_fun w sp pu s rs rs' : reference w sp pu s rs -> reference w sp pu s rs' -> rs = rs'.
Proof. intros (l & H1 & H2) (l' & K1 & K2). rewrite (bert_split_fun _ _ _ _ _ K1 _ H1) in K2. eapply words_rows_fun; eassumption. Qed.

(** ** The pieces of the pre-tokenizer are the words of the reference *)
Definition iso (pu : N -> bool) (p : wstr * wstr) : list (wstr * wstr) := map (fun q : wstr * wstr => ((fst p ++ fst q) : wstr, snd q)) (isolate pu [] [] (snd p)).
Lemma isolate_shift f cs : forall p pre cur, isolate f (p ++ pre) cur cs = map (fun q : wstr * wstr => ((p ++ fst q) : wstr, snd q)) (isolate f pre cur cs).
Proof.
  induction cs as [|c cs IH]; intros p pre cur; cbn [isolate].
  - destruct cur; reflexivity.
  - destruct (f c); [|apply IH]. rewrite map_app. cbn [map fst snd]. rewrite <- !app_assoc. rewrite IH. f_equal. destruct cur; reflexivity.
Qed.
Lemma iso_isolate pu p : iso pu p = isolate pu (fst p) [] (snd p).
Proof. unfold iso. rewrite <- isolate_shift, app_nil_r. reflexivity. Qed.
Lemma isolate_plain f x : Forall (fun c => f c = false) x -> forall pre cur r, isolate f pre cur (x ++ r) = isolate f pre (cur ++ x) r.
Proof.
  induction 1 as [|c x Hc _ IH]; intros pre cur r; cbn [app]; [rewrite app_nil_r; reflexivity|]. cbn [isolate]. rewrite Hc, IH, <- app_assoc. reflexivity.
Qed.
Lemma pieces_punct sp pu x c : Forall (fun c => pu c = false) x -> pu c = true -> forall s pre cur,
  flat_map (iso pu) (words sp pre (x ++ c :: cur) s) = flush pre x ++ (pre ++ x, [c]) :: flat_map (iso pu) (words sp (pre ++ x ++ [c]) cur s).
Proof.
  intros Hx Hc. assert (F : forall pre cur, flat_map (iso pu) (flush pre (x ++ c :: cur)) = flush pre x ++ (pre ++ x, [c]) :: flat_map (iso pu) (flush (pre ++ x ++ [c]) cur)).
  { intros pre cur. assert (E : flush pre (x ++ c :: cur) = [(pre, x ++ c :: cur)]) by (destruct x; reflexivity). rewrite E. cbn [flat_map]. rewrite app_nil_r, iso_isolate. cbn [fst snd]. rewrite isolate_plain by exact Hx. cbn [app isolate]. rewrite Hc. f_equal. f_equal.
    destruct cur as [|d cur]; [reflexivity|]. cbn [flush flat_map]. rewrite app_nil_r, iso_isolate. reflexivity. }
  induction s as [|d s IH]; intros pre cur; cbn [words]; [apply F|]. destruct (sp d).
  - rewrite !flat_map_app, F, <- app_assoc. cbn [app]. rewrite <- !app_assoc. reflexivity.
  - specialize (IH pre (cur ++ [d])). rewrite <- app_assoc. cbn [app]. exact IH.
Qed.
Lemma split_pieces sp pu pos s l : bert_split sp pu pos s l -> forall pre, units pre = pos ->
  map (fun p => (units (fst p), snd p)) (flat_map (iso pu) (words sp pre [] s)) = l.
Proof.
  induction 1 as [pos|pos c s l Hs H IH|pos c s l Hs Hp H IH|pos x s l Hx HF Hm H IH]; intros pre Hpre.
  - reflexivity.
  - cbn [words]. rewrite Hs. cbn [flush app]. apply IH. rewrite units_app, Hpre. reflexivity.
  - cbn [words]. rewrite Hs. cbn [app]. pose proof (pieces_punct sp pu [] c (Forall_nil _) Hp s pre []) as K. cbn [app flush] in K. rewrite app_nil_r in K. rewrite K. cbn [map fst snd]. rewrite Hpre. f_equal. apply IH. rewrite units_app, Hpre. reflexivity.
  - assert (Hsp : Forall (fun c => sp c = false) x) by (eapply Forall_impl; [|exact HF]; intros c K; apply K). assert (Hpu : Forall (fun c => pu c = false) x) by (eapply Forall_impl; [|exact HF]; intros c K; apply K).
    assert (W : words sp pre [] (x ++ s) = words sp pre x s). { clear - Hsp. change x with ([] ++ x) at 2. generalize ([] : wstr) as cur. induction Hsp as [|c x Hc _ IH]; intros cur; cbn [app]; [rewrite app_nil_r; reflexivity|]. cbn [words]. rewrite Hc, IH, <- app_assoc. reflexivity. }
    rewrite W. assert (Fx : flush pre x = [(pre, x)]) by (destruct x; [congruence | reflexivity]). assert (Ix : flat_map (iso pu) (flush pre x) = [(pre, x)]).
    { rewrite Fx. cbn [flat_map]. rewrite app_nil_r, iso_isolate. cbn [fst snd]. rewrite <- (app_nil_r x) at 1. rewrite isolate_plain by exact Hpu. cbn [app isolate]. exact Fx. }
    specialize (IH (pre ++ x)). rewrite units_app, Hpre in IH. specialize (IH eq_refl). destruct s as [|c s].
    + cbn [words]. rewrite Ix. cbn [map fst snd]. rewrite Hpre. f_equal. exact IH.
    + cbn [words] in *. destruct (sp c) eqn:Es.
      * rewrite flat_map_app, map_app, Ix. cbn [map fst snd app]. rewrite Hpre. f_equal. cbn [flush app] in IH. rewrite <- app_assoc in IH. exact IH.
      * destruct Hm as [Hm|Hm]; [congruence|]. pose proof (pieces_punct sp pu x c Hpu Hm s pre []) as K1. pose proof (pieces_punct sp pu [] c (Forall_nil _) Hm s (pre ++ x) []) as K2. cbn [app flush] in K2, IH. rewrite K2 in IH. rewrite K1, Fx. cbn [app map fst snd] in *. rewrite app_nil_r in IH. rewrite Hpre. f_equal. rewrite <- app_assoc in IH. exact IH.
Qed.
Lemma bert_pieces_split sp pu s : bert_split sp pu 0 s (map (fun p => (units (fst p), snd p)) (bert_pieces sp pu s)).
Proof. destruct (bert_split_total sp pu (length s) s 0 (le_n _)) as (l & Hl). pose proof (split_pieces sp pu 0 s l Hl [] eq_refl) as K. fold (bert_pieces sp pu s) in K. change (flat_map (iso pu) (words sp [] [] s)) with (bert_pieces sp pu s) in K. rewrite K. exact Hl. Qed.

(** ** Rows of an encoding made from pieces *)
Lemma split_rows_rows base i ts : rows (split_rows base i 0 ts) = word_rows i base ts.
Proof. unfold rows, split_rows, word_rows. cbn [en_ids en_type_ids en_tokens en_words en_offsets en_smask en_amask]. induction ts as [|k ts IH]; [reflexivity|]. cbn [map zip7]. rewrite IH. reflexivity. Qed.
Lemma word_tokens_word w x ts : forallb valid_cp x = true -> wp_word w (utf8_encs x) = Ok ts -> word_tokens w x ts.
Proof.
  intros Hv H. pose proof (wp_word_spec w (utf8_encs x)) as HS. cbv zeta in HS. rewrite (from_utf8_encs x Hv) in HS. change (length (flat_map utf16_enc x)) with (units x) in HS. destruct HS as (ts' & Hw & HS). rewrite H in Hw. injection Hw as <-.
  unfold word_tokens. destruct HS as [(B & ->)|[(B & Hg)|(B & Hn & ->)]]; [right; split; [left; exact B | reflexivity] | left; auto | right; split; [right; exact Hn | reflexivity]].
Qed.
Definition located_at (ns : nstring) (p : wstr * wstr) (base : nat) : Prop := forall ts, split_base ns (mkSplit (utf8_encs (snd p)) (fst (piece_span p) + 0, snd (piece_span p) + 0) ts) = Ok base.
Lemma pieces_rows w ns pieces : Forall (fun p => forallb valid_cp (snd p) = true) pieces -> forall l i e,
  Forall2 (fun s s' => sp_text s' = sp_text s /\ sp_off s' = sp_off s /\ wp_word w (sp_text s) = Ok (sp_tokens s')) (map (piece_split 0) pieces) l -> into_rows ns 0 i l = Ok e ->
  exists bases, Forall2 (located_at ns) pieces bases /\ words_rows w i (combine bases (map snd pieces)) (rows e).
Proof.
  induction 1 as [|p pieces Hp Hps IH]; intros l i e HF H; cbn [map] in HF; inversion HF as [|? s ? l' (A1 & A2 & A3) HF']; subst; cbn [into_rows] in H.
  - injection H as <-. exists []. split; constructor.
  - apply bind_ok in H as (base & Hb & H). apply bind_ok in H as (rest & Hr & H). injection H as <-. destruct (IH l' (S i) rest HF' Hr) as (bases & B1 & B2). exists (base :: bases). split.
    + apply Forall2_cons; [|exact B1]. intros ts. unfold split_base in *. rewrite A2 in Hb. exact Hb.
    + cbn [combine map]. rewrite rows_append by apply split_rows_flat. rewrite split_rows_rows. apply wr_cons; [|exact B2]. apply word_tokens_word; assumption.
Qed.
Lemma words_rows_bases w i l rs : words_rows w i l rs -> forall l' rs', map snd l' = map snd l -> words_rows w i l' rs' -> Forall2 same_but_offset rs rs'.
Proof.
  induction 1 as [|i pos x l ts rs Ht H IH]; intros [|[pos' x'] l'] rs' E H'; cbn [map] in E; try discriminate; inversion H' as [|? ? ? ? ts' rs'' Ht' H2]; subst; [constructor|]. injection E as -> E.
  apply Forall2_app; [|eapply IH; eassumption]. rewrite (word_tokens_fun _ _ _ _ Ht' Ht). clear. unfold word_rows. induction ts as [|k ts IHt]; [constructor|]. cbn [map]. constructor; [repeat split | exact IHt].
Qed.
Lemma words_rows_total w : forall l i, Forall (fun p => forallb valid_cp (snd p) = true) l -> exists rs, words_rows w i l rs.
Proof.
  induction l as [|[pos x] l IH]; intros i H; [eexists; constructor|]. inversion H as [|? ? Hx Hl]; subst. cbn [snd] in Hx. destruct (IH (S i) Hl) as (rs & Hrs).
  pose proof (wp_word_spec w (utf8_encs x)) as HS. cbv zeta in HS. destruct HS as (ts & Hw & _). eexists. apply wr_cons; [apply word_tokens_word; eassumption | exact Hrs].
Qed.
