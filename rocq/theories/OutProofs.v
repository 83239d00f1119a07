(** How each part of encode can end. *)
From Verif Require Import Base BaseFacts Unicode Common Utils PostProcessor Decoder Normalizer PreTokenizer WordPiece Bpe AddedVocab Tokenizer Spec OutSpec WpSpec WpProofs UtilsProofs UnicodeProofs DecSpec DecProofs PreSpec PreProofs PropsPre NormSpec NormProofs AvSpec AvProofs.
From Coq Require Import ZifyBool ZifyNat ZifyN.

Definition ends {A} (P : exn -> Prop) (Q : ub -> Prop) (R : A -> Prop) (r : res A) : Prop :=
  match r with Ok a => R a | Throw e => P e | Undef u => Q u | Diverge => False end.
Lemma ends_bind {A B} P Q (R : A -> Prop) (S : B -> Prop) x f : ends P Q R x -> (forall a, R a -> ends P Q S (f a)) -> ends P Q S (bind x f).
Proof. intros Hx Hf. destruct x; cbn in *; auto. Qed.
Lemma ends_mono {A} (P P' : exn -> Prop) (Q Q' : ub -> Prop) (R R' : A -> Prop) x : ends P Q R x -> (forall e, P e -> P' e) -> (forall u, Q u -> Q' u) -> (forall a, R a -> R' a) -> ends P' Q' R' x.
Proof. intros Hx HP HQ HR. destruct x; cbn in *; auto. Qed.
Definition oob (u : ub) : Prop := u = OobIndex.
Definition never {A} (_ : A) : Prop := False.

Lemma vat_ends {A} P (l : list A) i : ends P oob (fun x => In x l) (vat l i).
Proof. unfold vat. destruct (nth_error l i) eqn:Eq; cbn; [eapply nth_error_In, Eq | reflexivity]. Qed.
Lemma verase_ends {A} P (l : list A) a b : ends P oob (fun l' => l' = firstn a l ++ skipn b l /\ a <= b /\ b <= length l) (verase l a b).
Proof. unfold verase. destruct ((a <=? b) && (b <=? length l))%bool eqn:Eq; cbn; [|reflexivity]. apply andb_prop in Eq as [E1 E2]. split; [reflexivity | lia]. Qed.
Lemma vinsert_ends {A} P (l : list A) i xs : ends P oob (fun l' => l' = firstn i l ++ xs ++ skipn i l /\ i <= length l) (vinsert l i xs).
Proof. unfold vinsert. destruct (Nat.leb_spec i (length l)); cbn; [split; [reflexivity | assumption] | reflexivity]. Qed.

Ltac bnd H := eapply ends_bind; [eapply ends_mono; [apply H | auto | auto | intros ? Hx; exact Hx]|].

Lemma transform_ends P ns i op : op <> OpReplace 0 -> ends P oob (fun ns' => ns_text ns' = ns_text ns) (transform ns i op).
Proof.
  intros Hop. unfold transform. bnd (@vat_ends (nat * nat) P). intros [start limit] _. destruct op.
  - bnd (@verase_ends (nat * nat) P). intros ? _. bnd (@verase_ends (nat * nat) P). intros ? _. reflexivity.
  - bnd (@vat_ends (nat * nat) P). intros ? _. bnd (@vinsert_ends (nat * nat) P). intros ? _. bnd (@verase_ends (nat * nat) P). intros ? _. bnd (@vinsert_ends (nat * nat) P). intros ? _. reflexivity.
  - bnd (@verase_ends (nat * nat) P). intros ? _. bnd (@vinsert_ends (nat * nat) P). intros ? _. reflexivity.
  - bnd (@verase_ends (nat * nat) P). intros ? _. reflexivity.
  - bnd (@verase_ends (nat * nat) P). intros ? _. bnd (@vinsert_ends (nat * nat) P). intros ? _. bnd (@vat_ends (nat * nat) P). intros ? _. bnd (@vinsert_ends (nat * nat) P). intros ? _. reflexivity.
  - bnd (@verase_ends (nat * nat) P). intros ? _. bnd (@vinsert_ends (nat * nat) P). intros ? _. bnd (@vat_ends (nat * nat) P). intros ? _. destruct n as [|n]; [congruence|]. bnd (@vinsert_ends (nat * nat) P). intros ? _. reflexivity.
Qed.

Section Norm.
Variable E : env.
Hypothesis HE : scalar_env E.
Hypothesis HP : regex_progress E.

(** the exceptions and the undefined behaviour of normalizers *)
Inductive nthrow (part : normalizer -> Prop) : exn -> Prop :=
| nt_prepend b : part (NPrepend b) -> In None (utf8_dec b) -> nthrow part RangeError
| nt_pattern p c b : part (NReplace p c) -> b = p \/ b = c -> In None (utf8_dec b) -> nthrow part RangeError
| nt_form f w : part (NForm f) -> e_norm E f w = None -> nthrow part RuntimeError
| nt_bert cl ch st lo w : part (NBert cl ch st lo) -> st || lo = true -> e_norm E NFD w = None -> nthrow part RuntimeError
| nt_regex p c w : part (NReplace p c) -> convert_from_string p = Ok w -> e_wregex_ok E w = false -> nthrow part RegexError.
Inductive nundef (part : normalizer -> Prop) : ub -> Prop :=
| nu_replace p c w : part (NReplace p c) -> convert_from_string c = Ok w -> (e_inplace E = false \/ length w <> 1) -> nundef part IterInvalidated
| nu_oob : nundef part OobIndex.
Definition valid_text (ns : nstring) : Prop := forallb valid_cp (ns_text ns) = true.

Lemma oob_n part u : oob u -> nundef part u.
Proof. intros ->. constructor. Qed.

Lemma apply_grow_ends P l : forall ns multi, ends P oob (fun ns' => ns_text ns' = ns_text ns) (apply_grow ns l multi).
Proof. induction l as [|i l IH]; intros ns multi; [reflexivity|]. cbn [apply_grow]. bnd (transform_ends P); [discriminate|]. intros ns' H. eapply ends_mono; [apply IH | auto | auto | cbn; congruence]. Qed.
Lemma apply_pad_ends P l : forall ns multi, ends P oob (fun ns' => ns_text ns' = ns_text ns) (apply_pad ns l multi).
Proof. induction l as [|i l IH]; intros ns multi; [reflexivity|]. cbn [apply_pad]. bnd (transform_ends P); [discriminate|]. intros ns' H. eapply ends_mono; [apply IH | auto | auto | cbn; congruence]. Qed.
Lemma apply_shrink_ends P l : forall ns multi, ends P oob (fun ns' => ns_text ns' = ns_text ns) (apply_shrink ns l multi).
Proof. induction l as [|i l IH]; intros ns multi; [reflexivity|]. cbn [apply_shrink]. bnd (transform_ends P); [discriminate|]. intros ns' H. eapply ends_mono; [apply IH | auto | auto | cbn; congruence]. Qed.
Lemma apply_replace_ends P l nb wl : 0 < nb \/ l = [] -> forall ns multi, ends P oob (fun ns' => ns_text ns' = ns_text ns) (apply_replace ns l nb wl multi).
Proof.
  intros [Hn| ->]; [|intros; reflexivity]. induction l as [|i l IH]; intros ns multi; [reflexivity|]. cbn [apply_replace]. bnd (transform_ends P); [intros H; injection H as ->; lia|].
  intros ns' H. eapply ends_mono; [apply IH | auto | auto | cbn; congruence].
Qed.

Lemma forallb_fix w : forallb valid_cp (map fix_cp w) = true.
Proof. induction w as [|c w IH]; [reflexivity|]. cbn [map forallb]. rewrite IH, andb_true_r. unfold fix_cp. destruct (valid_cp c) eqn:Eq; [exact Eq | reflexivity]. Qed.
Lemma nf_ends (P : exn -> Prop) f ns : (forall w, e_norm E f w = None -> P RuntimeError) -> ends P oob valid_text (normalize_nf E f ns).
Proof.
  intros HR. unfold normalize_nf. destruct (e_norm E f (map fix_cp (ns_text ns))) as [r|] eqn:Eq; [|cbn; eapply HR; exact Eq].
  bnd (apply_grow_ends P). intros ns' _. cbn. apply (proj1 HE) in Eq; [exact Eq | apply forallb_fix].
Qed.
Lemma clean_ends P l : forall ns i, forallb valid_cp l = true -> ends P oob (fun p => ns_text (fst p) = ns_text ns /\ forallb valid_cp (snd p) = true) (clean_loop E ns i l).
Proof.
  induction l as [|c l IH]; intros ns i H; [split; reflexivity|]. cbn [clean_loop forallb] in *. apply andb_prop in H as [Hc Hl]. destruct (removed_by_clean E c).
  - bnd (transform_ends P); [discriminate|]. intros ns' Hn. eapply ends_mono; [apply IH; exact Hl | auto | auto | cbn; intros a [H1 H2]; split; congruence].
  - bnd IH; [exact Hl|]. intros [ns' t] [H1 H2]. cbn in *. split; [exact H1|]. rewrite H2, andb_true_r. destruct (is_whitespace E c); [reflexivity | exact Hc].
Qed.
Lemma spaced_valid l : forallb valid_cp l = true -> forallb valid_cp (spaced is_chinese_char l) = true.
Proof. induction l as [|c l IH]; cbn [spaced forallb]; [auto|]. intros H. apply andb_prop in H as [Hc Hl]. destruct (is_chinese_char c); cbn [app forallb]; rewrite ?Hc, IH by exact Hl; reflexivity. Qed.
Lemma chinese_ends P ns : valid_text ns -> ends P oob valid_text (do_handle_chinese_chars ns).
Proof.
  intros H. unfold do_handle_chinese_chars. bnd (apply_pad_ends P). intros ns' Hn. rewrite Hn. pose proof (apply_changes_spec (ns_text ns) []) as Hc. cbn [app length] in Hc. rewrite Hc. cbn. apply spaced_valid, H.
Qed.
Lemma filter_valid f l : forallb valid_cp l = true -> forallb valid_cp (filter f l) = true.
Proof. rewrite !forallb_forall. intros H c Hc. apply filter_In in Hc. apply H, Hc. Qed.
Lemma accents_ends (P : exn -> Prop) ns : (forall w, e_norm E NFD w = None -> P RuntimeError) -> ends P oob valid_text (do_strip_accents E ns).
Proof. intros HR. unfold do_strip_accents. bnd (nf_ends P); [exact HR|]. intros n Hn. bnd (apply_shrink_ends P). intros ns' _. cbn. apply filter_valid, Hn. Qed.
Lemma bert_ends (P : exn -> Prop) cl ch st lo ns : (forall w, st || lo = true -> e_norm E NFD w = None -> P RuntimeError) -> valid_text ns -> ends P oob valid_text (bert_normalize E cl ch st lo ns).
Proof.
  intros HR H. unfold bert_normalize. apply ends_bind with (R := valid_text).
  { destruct cl; [|exact H]. unfold do_clean_text. bnd (clean_ends P); [exact H|]. intros [ns' t] [_ Ht]. exact Ht. }
  intros n1 H1. apply ends_bind with (R := valid_text); [destruct ch; [apply chinese_ends; exact H1 | exact H1]|].
  intros n2 H2. apply ends_bind with (R := valid_text); [destruct (st || lo) eqn:Eq; [apply accents_ends; intros w; apply HR; reflexivity | exact H2]|].
  intros n3 H3. destruct lo; [|exact H3]. cbn. unfold valid_text in *. cbn [ns_text set_text]. clear - HE H3. revert H3. induction (ns_text n3) as [|c l IH]; [reflexivity|]. cbn [map forallb]. intros H. apply andb_prop in H as [Hc Hl]. rewrite (proj2 HE c Hc), IH by exact Hl. reflexivity.
Qed.
Lemma convert_ends (P : exn -> Prop) Q b : (In None (utf8_dec b) -> P RangeError) -> ends P Q (fun w => convert_from_string b = Ok w /\ forallb valid_cp w = true /\ b = utf8_encs w) (convert_from_string b).
Proof.
  intros HR. destruct (convert_from_string b) as [w| | |] eqn:Eq; cbn.
  - split; [reflexivity|]. apply convert_from_string_iff in Eq as [-> Hv]. auto.
  - destruct (convert_from_string_total b) as [[w Hw]|Hw]; [congruence|]. assert (e = RangeError) by congruence. subst e. apply HR. unfold convert_from_string in Eq. destruct (all_some (utf8_dec b)) eqn:Ea; [discriminate|].
    clear - Ea. induction (utf8_dec b) as [|[x|] l IH]; [discriminate | | left; reflexivity]. right. apply IH. cbn in Ea. destruct (all_some l); [discriminate | reflexivity].
  - destruct (convert_from_string_total b) as [[w Hw]|Hw]; congruence.
  - destruct (convert_from_string_total b) as [[w Hw]|Hw]; congruence.
Qed.
Lemma firstn_valid k l : forallb valid_cp l = true -> forallb valid_cp (firstn k l) = true.
Proof. intros H. rewrite forallb_forall in *. intros c Hc. apply H. rewrite <- (firstn_skipn k l). apply in_or_app. auto. Qed.
Lemma skipn_valid k l : forallb valid_cp l = true -> forallb valid_cp (skipn k l) = true.
Proof. intros H. rewrite forallb_forall in *. intros c Hc. apply H. rewrite <- (firstn_skipn k l). apply in_or_app. auto. Qed.
Lemma replace_ends P pat c : forallb valid_cp c = true -> forall fuel (text : wstr) from (we : bool), forallb valid_cp text = true -> 2 * (length text - from) + (if we then 0 else 1) < fuel ->
  ends P (fun u => u = OobIndex \/ u = IterInvalidated /\ (e_inplace E = false \/ length c <> 1)) (fun p => forallb valid_cp (fst p) = true /\ (length c = 1 \/ snd p = [])) (replace_matches E fuel pat c text from we).
Proof.
  intros Hc. induction fuel as [|f IH]; intros text from we Hv Hm; [lia|]. cbn [replace_matches]. destruct (e_wregex_next E pat text from we) as [[pos len]|] eqn:Eq; [|cbn; auto]. destruct (HP _ _ _ _ _ _ Eq) as (H1 & H2 & H3).
  eapply ends_bind; [eapply ends_mono; [apply (verase_ends P) | intros e He; exact He | intros u Hu; left; exact Hu | intros a Ha; exact Ha]|]. intros t1 (-> & _ & L1).
  eapply ends_bind; [eapply ends_mono; [apply (vinsert_ends P) | intros e He; exact He | intros u Hu; left; exact Hu | intros a Ha; exact Ha]|]. intros t2 (E2 & L2).
  destruct (e_inplace E) eqn:Ei; cbn [andb]; [|cbn; auto]. destruct (Nat.eqb_spec (length c) 1) as [Hl|Hl]; [|cbn; auto].
  assert (Hlen : length t2 = length text). { rewrite E2, !app_length, !firstn_length, !skipn_length, !app_length, firstn_length, skipn_length. lia. }
  assert (Hv2 : forallb valid_cp t2 = true). { rewrite E2, !forallb_app. rewrite Hc. rewrite firstn_valid, skipn_valid; [reflexivity| |]; rewrite forallb_app, firstn_valid, skipn_valid by exact Hv; reflexivity. }
  eapply ends_bind; [apply (IH t2 (pos + len) (len =? 0) Hv2)|].
  - rewrite Hlen. destruct (Nat.eqb_spec len 0) as [->|Hl0]; [|destruct we; lia]. destruct we; [specialize (H3 eq_refl); lia|]. lia.
  - intros [t3 ids] [A B]. cbn in *. auto.
Qed.
Lemma replace_norm_ends (part : normalizer -> Prop) p c ns : part (NReplace p c) -> valid_text ns -> ends (nthrow part) (nundef part) valid_text (replace_normalize E p c ns).
Proof.
  intros Hp H. unfold replace_normalize. eapply ends_bind; [apply convert_ends; intros Hn; apply (nt_pattern part p c p Hp); auto|]. intros pat (Hpat & _). destruct (e_wregex_ok E pat) eqn:Eo; cbn [negb]; [|cbn; eapply nt_regex; eauto].
  eapply ends_bind; [apply convert_ends; intros Hn; apply (nt_pattern part p c c Hp); auto|]. intros w (Hw & Hv & Hb).
  eapply ends_bind; [eapply ends_mono; [apply (replace_ends (nthrow part) pat w Hv); [exact H | lia] | auto | intros u [-> |[-> Hu]]; [constructor | eapply nu_replace; eauto] | intros a Ha; exact Ha]|].
  intros [text ids] [A B]. cbn [fst snd] in *. bnd (apply_replace_ends (nthrow part)).
  - destruct B as [B| ->]; [|right; reflexivity]. left. rewrite Hb. destruct w as [|x w]; [discriminate|]. cbn [utf8_encs flat_map]. rewrite app_length. unfold utf8_enc. repeat match goal with |- context [(?a <? ?b)%N] => destruct (a <? b)%N end; cbn [length]; lia.
  - intros u Hu. apply oob_n, Hu.
  - intros ns' _. exact A.
Qed.
Lemma normalize_ends_part (part : normalizer -> Prop) : forall n, (forall q, norm_part q n -> part q) -> forall ns, valid_text ns -> ends (nthrow part) (nundef part) valid_text (normalize E n ns).
Proof.
  fix IH 1. intros n Hpart ns H. destruct n as [cl ch st lo|f|b|p c|lft rgt| |l]; cbn [normalize].
  - eapply ends_mono; [apply (bert_ends (nthrow part)); [|exact H] | auto | intros u; apply oob_n | auto]. intros w Hs Hw. apply (nt_bert part cl ch st lo w); auto. apply Hpart. constructor.
  - eapply ends_mono; [apply (nf_ends (nthrow part)) | auto | intros u; apply oob_n | auto]. intros w Hw. apply (nt_form part f w); auto. apply Hpart. constructor.
  - unfold prepend_normalize. eapply ends_bind; [apply convert_ends; intros Hn; apply (nt_prepend part b); [apply Hpart; constructor | exact Hn]|]. intros w (_ & Hv & _). bnd (transform_ends (nthrow part)); [discriminate | intros u; apply oob_n|].
    intros ns' _. cbn. unfold valid_text. cbn [ns_text set_text]. rewrite forallb_app, Hv. exact H.
  - apply replace_norm_ends; [apply Hpart; constructor | exact H].
  - cbn. unfold valid_text in *. cbn [ns_text set_text]. assert (D : forall l, forallb valid_cp l = true -> forallb valid_cp (drop_while strip_space l) = true).
    { induction l as [|c l IHl]; [auto|]. cbn [drop_while forallb]. intros Hc. destruct (strip_space c); [apply IHl; apply andb_prop in Hc; apply Hc | exact Hc]. }
    assert (RV : forall l, forallb valid_cp l = true -> forallb valid_cp (rev l) = true) by (intros l; rewrite !forallb_forall; intros Hl c Hc; apply Hl, in_rev, Hc).
    destruct lft, rgt; auto.
  - cbn. apply filter_valid, H.
  - assert (Hl : forall q, In q l -> forall x, norm_part x q -> part x) by (intros q Hq x Hx; apply Hpart; eapply np_in; eauto). clear Hpart. revert ns H.
    induction l as [|q l IHl]; intros ns H; [exact H|]. eapply ends_bind; [apply (IH q); [apply Hl; left; reflexivity | exact H]|].
    intros ns' H'. apply IHl; [|exact H']. intros x Hx. apply Hl. right. exact Hx.
Qed.
End Norm.

(** ** Added vocabulary *)
Lemma utf16_utf8_length w : length (flat_map utf16_enc w) <= length (utf8_encs w).
Proof.
  induction w as [|c w IH]; [cbn; lia|]. cbn [flat_map utf8_encs]. rewrite !app_length. assert (length (utf16_enc c) <= length (utf8_enc c)); [|unfold utf8_encs in IH; lia].
  unfold utf16_enc, utf8_enc. repeat match goal with |- context [(?a <? ?b)%N] => destruct (N.ltb_spec a b) end; cbn [length]; lia.
Qed.
Lemma substr_from_ends P Q s a : a <= length s -> ends P Q (fun _ => True) (substr_from s a).
Proof. intros H. unfold substr_from. replace (a <=? length s) with true by lia. exact I. Qed.
Lemma substr_range_ends P Q s a b : a <= length s -> ends P Q (fun _ => True) (substr_range s a b).
Proof. intros H. unfold substr_range. replace (a <=? length s) with true by lia. exact I. Qed.
Definition in_sentence (s : bytes) (m : nat * nat * Z) : Prop := snd (fst m) <= length s.
Lemma resolve_ends P Q (sentence : bytes) total l : Forall (in_sentence sentence) l -> forall start map_r,
  ends P Q (fun p => l = [] -> start = 0 -> snd p = [] \/ snd p = [(None, (0, total))]) (resolve_matches sentence total start map_r l).
Proof.
  induction 1 as [|[[a b] id] l Hb HL IH]; intros start map_r; cbn [resolve_matches]; [cbn; intros _ ->; destruct (0 =? total); auto|].
  unfold in_sentence in Hb. cbn [fst snd] in Hb. destruct (match zfind id map_r with Some t => _ | None => _ end) as [tok map'].
  eapply ends_bind with (R := fun _ => True).
  { destruct (at_single_word tok); [|exact I]. eapply ends_bind with (R := fun _ => True); [destruct (a =? 0); [exact I|]; eapply ends_bind; [apply substr_range_ends; lia | intros; exact I]|].
    intros b1 _. eapply ends_bind with (R := fun _ => True); [destruct (b =? length sentence); [exact I|]; eapply ends_bind; [apply substr_from_ends; exact Hb | intros; exact I]|]. intros; exact I. }
  intros keep _. destruct (negb keep); [eapply ends_mono; [apply IH | auto | auto | intros x _ H; discriminate H]|].
  eapply ends_bind with (R := fun _ => True); [destruct (at_lstrip tok); [|exact I]; eapply ends_bind; [apply substr_range_ends; lia | intros; exact I]|]. intros a' _.
  eapply ends_bind with (R := fun _ => True); [destruct (at_rstrip tok); [|exact I]; eapply ends_bind; [apply substr_from_ends; exact Hb | intros; exact I]|]. intros b' _.
  eapply ends_bind; [apply IH|]. intros [m rest] _. cbn. intros H; discriminate H.
Qed.
Lemma raw_empty u todo : forall i cur, raw_matches [] u todo i cur = [].
Proof. induction todo as [|n IH]; intros i cur; cbn [raw_matches sfind]; [destruct (i =? cur); reflexivity | rewrite IH; reflexivity]. Qed.
Lemma raw_in ids u todo : forall i cur, i + todo = length u -> cur <= i -> Forall (fun m => snd (fst m) <= length u) (raw_matches ids u todo i cur).
Proof.
  induction todo as [|n IH]; intros i cur Hi Hc; cbn [raw_matches].
  - destruct (i =? cur); [constructor|]. destruct (sfind _ _); [|constructor]. constructor; [cbn; lia | constructor].
  - assert (Forall (fun m => snd (fst m) <= length u) (raw_matches ids u n (S i) (if (nth i u 0 =? 32)%N then S i else match sfind (to_utf8 (usub u cur (i - cur))) ids with Some _ => i | None => cur end))).
    { apply IH; [lia|]. destruct (_ =? _)%N; [lia|]. destruct (sfind _ _); lia. }
    destruct (sfind _ _); [constructor; [cbn; lia | assumption] | assumption].
Qed.
Lemma find_ends P Q map_r w trie : forallb valid_cp w = true ->
  ends P Q (fun p => trie = [] -> snd p = [] \/ snd p = [(None, (0, length (flat_map utf16_enc w)))]) (av_find_matches map_r (utf8_encs w) trie).
Proof.
  intros Hw. unfold av_find_matches. rewrite from_utf8_encs by exact Hw. eapply ends_mono; [apply (resolve_ends P Q) | auto | auto |].
  - eapply Forall_impl; [|apply raw_in; [lia | lia]]. intros m Hm. unfold in_sentence. pose proof (utf16_utf8_length w). cbn beta in Hm. lia.
  - cbn beta. intros p Hp Ht. apply Hp; [rewrite Ht; apply raw_empty | reflexivity].
Qed.
Definition good_split (s : split) : Prop := exists w, forallb valid_cp w = true /\ sp_text s = utf8_encs w.
Lemma substr_valid s a b w : forallb valid_cp s = true -> substr_range s a b = Ok w -> forallb valid_cp w = true.
Proof. unfold substr_range. intros H. destruct (a <=? length s); [|discriminate]. intros Hw. injection Hw as <-. destruct (b <? a); [apply skipn_valid, H | apply firstn_valid, skipn_valid, H]. Qed.
Lemma norm_splits_ends (P : exn -> Prop) Q s base l : forallb valid_cp s = true -> P OutOfRange \/ Forall (fun m => fst (snd m) <= length s) l -> ends P Q (Forall good_split) (norm_splits s base l).
Proof.
  intros Hs. induction l as [|[o [a b]] l IH]; intros HP; [constructor|]. cbn [norm_splits]. destruct (substr_range s a b) as [w|e| |] eqn:Ew.
  - cbn [bind]. pose proof (substr_valid _ _ _ _ Hs Ew) as Hw. unfold convert_to_string. rewrite Hw. cbn [bind]. eapply ends_bind; [apply IH; destruct HP as [HP|HP]; [left; exact HP | right; apply Forall_inv_tail in HP; exact HP]|].
    intros rest Hr. constructor; [exists w; auto | exact Hr].
  - destruct HP as [HP|HP]; [|exfalso; apply Forall_inv in HP; cbn [fst snd] in HP; unfold substr_range in Ew; replace (a <=? length s) with true in Ew by lia; discriminate].
    unfold substr_range in Ew. destruct (a <=? length s); [discriminate|]. injection Ew as <-. exact HP.
  - unfold substr_range in Ew. destruct (a <=? length s); discriminate.
  - unfold substr_range in Ew. destruct (a <=? length s); discriminate.
Qed.
Lemma raw_as_norm s l : raw_splits s l = norm_splits s 0 l.
Proof. induction l as [|[o [a b]] l IH]; [reflexivity|]. cbn [raw_splits norm_splits]. rewrite IH, !Nat.add_0_r. reflexivity. Qed.
Lemma range_ends P ns r sub : ends P oob (fun ns' => ns_text ns' = ns_text ns) (transform_range ns r sub).
Proof.
  unfold transform_range. destruct r as [a b]. bnd (@vat_ends (nat * nat) P). intros ra _. eapply ends_bind with (R := fun _ => True).
  { destruct (b =? length (ns_ranges ns)); [destruct b; [reflexivity|]|]; (eapply ends_mono; [apply (vat_ends P) | auto | auto | auto]). }
  intros rb _. eapply ends_bind with (R := fun _ => True); [destruct (rebase_ranges (fst ra) (ns_ranges sub)); [destruct (skipn b (ns_ranges ns))|]; (exact I || reflexivity)|]. intros new2 _.
  eapply ends_bind with (R := fun _ => True); [destruct (ns_offsets sub); [exact I|]; eapply ends_bind; [eapply ends_mono; [apply (vat_ends P) | auto | auto | intros x Hx; exact Hx]|]; intros; exact I|]. intros no _.
  bnd (@verase_ends (nat * nat) P). intros o1 _. bnd (@vinsert_ends (nat * nat) P). intros o2 _. reflexivity.
Qed.

Section Added.
Variable E : env.
Hypothesis HE : scalar_env E.
Hypothesis HP : regex_progress E.
Variable norm : option normalizer.
Variable part : normalizer -> Prop.
Hypothesis Hpart : forall n, norm = Some n -> forall q, norm_part q n -> part q.
Variable known : Prop.
Definition athrow (e : exn) : Prop := nthrow E part e \/ e = OutOfRange /\ known.
Lemma segs_fine (trie : list (bytes * Z)) (w : wstr) (ms : list (option Z * (nat * nat))) : (trie <> [] -> known) -> (trie = [] -> ms = [] \/ ms = [(None, (0, length (flat_map utf16_enc w)))]) -> athrow OutOfRange \/ Forall (fun m : option Z * (nat * nat) => fst (snd m) <= length w) ms.
Proof.
  intros Hk Hm. destruct trie as [|x trie]; [|left; right; split; [reflexivity | apply Hk; discriminate]]. right. destruct (Hm eq_refl) as [-> | ->]; repeat constructor. cbn. lia.
Qed.
Lemma new_valid w : forallb valid_cp w = true -> valid_text (new_nstring w).
Proof. intros H. unfold valid_text, new_nstring. destruct (ns_tables _ _ _ _). exact H. Qed.
Lemma new_text w : ns_text (new_nstring w) = w.
Proof. unfold new_nstring. destruct (ns_tables _ _ _ _). reflexivity. Qed.
Lemma normalize_splits_ends trie l : (trie <> [] -> known) -> Forall good_split l -> forall ns map_r ending,
  ends athrow (nundef E part) (fun p => ns_text (fst (fst p)) = ns_text ns /\ Forall good_split (snd p)) (normalize_splits E norm trie ns map_r ending l).
Proof.
  intros Hk. induction 1 as [|s l (w & Hw & Hs) HL IH]; intros ns map_r ending; [split; [reflexivity | constructor]|]. cbn [normalize_splits]. destruct (sp_tokens s) as [|tk tks].
  - rewrite Hs. rewrite (proj2 (convert_from_string_iff _ _) (conj eq_refl Hw)). cbn [bind]. cbv zeta. eapply ends_bind with (R := valid_text).
    { destruct norm as [n|]; [|apply new_valid, Hw]. eapply ends_mono; [apply (normalize_ends_part E HE HP part n (Hpart n eq_refl)); apply new_valid, Hw | left; assumption | auto | auto]. }
    intros sub Hsub. eapply ends_bind; [eapply ends_mono; [apply (range_ends athrow) | auto | intros u; apply oob_n | intros x Hx; exact Hx]|]. intros ns' Hns. unfold convert_to_string. unfold valid_text in Hsub. rewrite Hsub. cbn [bind].
    eapply ends_bind; [apply find_ends; exact Hsub|]. intros [m' ms] Hms. cbn [snd] in Hms. eapply ends_bind; [apply norm_splits_ends; [exact Hsub | apply (segs_fine trie); assumption]|]. intros here Hh.
    eapply ends_bind; [apply IH|]. intros [[ns2 m2] rest] [A B]. cbn in *. split; [congruence | apply Forall_app; auto].
  - cbv zeta. eapply ends_bind; [apply IH|]. intros [[ns2 m2] rest] [A B]. cbn in *. split; [exact A|]. constructor; [exists w; auto | exact B].
Qed.
Lemma extract_ends av s : (av_trie_norm av ++ av_trie_raw av <> [] -> known) -> forallb valid_cp s = true ->
  ends athrow (nundef E part) (fun p => ns_text (pt_norm (snd p)) = s /\ Forall good_split (pt_splits (snd p))) (extract_and_normalize E av norm s).
Proof.
  intros Hk Hs. unfold extract_and_normalize, new_pretok. rewrite new_text. unfold convert_to_string. rewrite Hs. cbn [bind pt_norm pt_splits]. rewrite !new_text. rewrite Hs. cbn [bind].
  eapply ends_bind; [apply find_ends; exact Hs|]. intros [m1 ms] Hms. cbn [snd] in Hms. rewrite raw_as_norm. eapply ends_bind; [apply norm_splits_ends; [exact Hs | apply (segs_fine (av_trie_raw av)); [|exact Hms]]|].
  { intros H. apply Hk. intros H'. apply app_eq_nil in H' as [_ H']. contradiction. }
  intros raw Hraw. cbv zeta. assert (H1 : Forall good_split (match raw with [] => [mkSplit (utf8_encs s) (0, length s) []] | _ => raw end)).
  { destruct raw; [|exact Hraw]. constructor; [exists s; auto | constructor]. }
  eapply ends_bind; [apply normalize_splits_ends; [|exact H1]|].
  { intros H. apply Hk. intros H'. apply app_eq_nil in H' as [H' _]. contradiction. }
  intros [[ns m2] splits2] [A B]. cbn [fst snd] in *. cbn. rewrite A, new_text. split; [reflexivity|]. destruct splits2; assumption.
Qed.
End Added.

(** ** Pre-tokenizers *)
Lemma utf16_cps_range n : forall u, length u <= n -> Forall (fun x => x < 65536)%N u -> Forall (fun p => fst p <= 0x10FFFF)%N (utf16_cps u).
Proof.
  induction n as [|n IH]; intros u Hl Hu; [destruct u; [constructor | cbn in Hl; lia]|]. destruct u as [|x r]; [constructor|]. cbn [utf16_cps length] in *. pose proof (Forall_inv Hu) as Hx. pose proof (Forall_inv_tail Hu) as Hr. cbn beta in Hx.
  assert (HX : (x <= 0x10FFFF)%N) by lia. destruct (is_lead x) eqn:El; [|constructor; [exact HX | apply IH; [lia | exact Hr]]]. destruct r as [|y r]; [constructor; [exact HX | constructor]|]. cbn [length] in Hl. destruct (is_trail y) eqn:Et.
  - constructor; [|apply IH; [lia | exact (Forall_inv_tail Hr)]]. cbn [fst]. unfold pair_cp, is_lead, is_trail in *. lia.
  - constructor; [exact HX | apply IH; [cbn [length]; lia | exact Hr]].
Qed.
Lemma to_utf8_bytes u : Forall (fun x => x < 65536)%N u -> Forall (fun b => b < 256)%N (to_utf8 u).
Proof.
  intros H. unfold to_utf8. pose proof (utf16_cps_range (length u) u ltac:(lia) H) as HC. induction HC as [|p l Hp _ IH]; [constructor|]. cbn [flat_map]. apply Forall_app. split; [|exact IH].
  unfold utf8_of_cp. destruct (is_surrogate (fst p)); apply utf8_enc_byte; lia.
Qed.
Lemma units_range w : forallb valid_cp w = true -> Forall (fun x => x < 65536)%N (flat_map utf16_enc w).
Proof.
  induction w as [|c w IH]; [constructor|]. cbn [forallb flat_map]. intros H. apply andb_prop in H as [Hc Hw]. apply Forall_app. split; [|apply IH, Hw]. unfold valid_cp in Hc. apply andb_prop in Hc as [_ Hc]. apply N.leb_le in Hc.
  unfold utf16_enc. destruct (N.ltb_spec c 0x10000); [constructor; [assumption | constructor]|]. assert ((c - 0x10000) / 1024 < 1024)%N by (apply N.div_lt_upper_bound; lia). assert ((c - 0x10000) mod 1024 < 1024)%N by (apply N.mod_lt; lia).
  constructor; [lia|]. constructor; [lia | constructor].
Qed.
Lemma from_utf8_range t : Forall (fun x => x < 65536)%N (from_utf8 t).
Proof. destruct (decoded_units t) as [-> H]. apply units_range, H. Qed.
Lemma sub_range u a b : Forall (fun x => x < 65536)%N u -> Forall (fun x => x < 65536)%N (usub_between u a b).
Proof.
  intros H. unfold usub_between, usub. rewrite Forall_forall in *. intros x Hx. apply H. rewrite <- (firstn_skipn a u). apply in_or_app. right. rewrite <- (firstn_skipn (b - a) (skipn a u)). apply in_or_app. left. exact Hx.
Qed.
Definition byte_split (s : split) : Prop := Forall (fun b => b < 256)%N (sp_text s).
Lemma split_all_ends (P : exn -> Prop) (Q : ub -> Prop) fn b l : (forall u, ends P Q (fun _ => True) (fn u)) -> Forall byte_split l -> ends P Q (Forall byte_split) (split_all fn b l).
Proof.
  intros Hf. induction 1 as [|s l Hs HL IH]; [constructor|]. cbn [split_all]. eapply ends_bind with (R := Forall byte_split).
  - destruct (is_nil (sp_tokens s)); [|constructor; [exact Hs | constructor]]. unfold split_normalized. eapply ends_bind; [apply Hf|]. intros ms _. cbn. apply Forall_forall. intros x Hx. apply in_map_iff in Hx as (m & <- & _). destruct (fst m) as [a z].
    unfold byte_split. cbn [sp_text]. apply to_utf8_bytes, sub_range, from_utf8_range.
  - intros here Hh. eapply ends_bind; [apply IH|]. intros rest Hr. cbn. apply Forall_app. auto.
Qed.

Section Pre.
Variable E : env.
Variable s : wstr.
Variable part : pre_tokenizer -> Prop.
Definition pthrow (e : exn) : Prop := e = OutOfRange /\ ((exists rx, part (TByteLevel true rx) /\ s = []) \/ (exists aps rx, part (TByteLevel aps rx) /\ e_char_signed E = true)).
Definition pundef (u : ub) : Prop := u = OobIndex \/ u = NullDeref /\ exists pat b inv x, part (TSplit pat b inv) /\ e_icu_matches E pat x = None.
Definition good_pt (p : pretok) : Prop := valid_text (pt_norm p) /\ (s <> [] -> ns_text (pt_norm p) <> []) /\ Forall byte_split (pt_splits p).
Lemma pt_split_ends (P : exn -> Prop) (Q : ub -> Prop) fn b p : (forall u, ends P Q (fun _ => True) (fn u)) -> good_pt p -> ends P Q good_pt (pt_split fn b p).
Proof. intros Hf (A & B & C). unfold pt_split. eapply ends_bind; [apply split_all_ends; [exact Hf | exact C]|]. intros l Hl. cbn. split; [exact A|]. split; [exact B | exact Hl]. Qed.
Lemma find_matches_ends (P : exn -> Prop) (Q : ub -> Prop) pat u : (e_icu_matches E pat u = None -> Q NullDeref) -> ends P Q (fun _ => True) (find_matches E pat u).
Proof.
  intros HQ. unfold find_matches, regex_matches. destruct (leqb pat pat_space); [exact I|]. destruct (leqb pat pat_punct); [exact I|]. destruct (leqb pat byte_level_pattern); [exact I|].
  destruct (e_icu_matches E pat u); [exact I | apply HQ; reflexivity].
Qed.
Lemma find_fixed_ends (P : exn -> Prop) (Q : ub -> Prop) pat u : In pat [pat_space; pat_punct; byte_level_pattern] -> ends P Q (fun _ => True) (find_matches E pat u).
Proof. intros [<-|[<-|[<-|[]]]]; exact I. Qed.
Lemma byte_text_ends (P : exn -> Prop) (Q : ub -> Prop) t : (e_char_signed E = true -> P OutOfRange) -> Forall (fun b => b < 256)%N t -> ends P Q (Forall (fun b => b < 256)%N) (byte_level_text E t).
Proof.
  intros HP Ht. rewrite byte_level_text_spec by exact Ht. destruct (forallb (byte_ok E) t) eqn:Eb; cbn.
  - unfold remapped. clear Eb. induction Ht as [|x t Hx _ IH]; [constructor|]. cbn [map concat flat_map]. apply Forall_app. split; [|exact IH]. apply utf8_enc_byte. pose proof (gpt2_cp_range x Hx). lia.
  - apply HP. destruct (e_char_signed E) eqn:Es; [reflexivity|]. exfalso. assert (forallb (byte_ok E) t = true) by (apply forallb_forall; intros x _; unfold byte_ok; rewrite Es; reflexivity). congruence.
Qed.
Lemma pre_ends_part : forall q, (forall x, pre_part x q -> part x) -> forall p, good_pt p -> ends pthrow pundef good_pt (pre_tokenize E q p).
Proof.
  fix IH 1. intros q Hpart p H. destruct q as [|pat b inv|aps rx|l]; cbn [pre_tokenize].
  - unfold bert_pre_tokenize. eapply ends_bind; [apply pt_split_ends; [intros u; apply find_fixed_ends; cbn; auto | exact H]|]. intros p1 H1. apply pt_split_ends; [intros u; apply find_fixed_ends; cbn; auto | exact H1].
  - unfold split_pre_tokenize. apply pt_split_ends; [|exact H]. intros u. apply find_matches_ends. intros Hn. right. split; [reflexivity|]. exists pat, b, inv, u. split; [apply Hpart; constructor | exact Hn].
  - unfold byte_level_pre_tokenize. assert (Hb : part (TByteLevel aps rx)) by (apply Hpart; constructor). eapply ends_bind with (R := good_pt).
    { destruct aps; [|exact H]. unfold add_prefix. destruct H as (A & B & C). destruct (ns_text (pt_norm p)) as [|c r] eqn:Et.
      - cbn. split; [reflexivity|]. left. exists rx. split; [exact Hb|]. destruct s; [reflexivity|]. exfalso. apply B; [discriminate | reflexivity].
      - destruct (e_iswspace E c); [cbn; split; [exact A|]; split; [rewrite Et; discriminate | exact C]|].
        eapply ends_bind; [eapply ends_mono; [apply (transform_ends pthrow); discriminate | auto | intros u Hu; left; exact Hu | intros x Hx; exact Hx]|]. intros ns Hns. cbn [ns_text set_text] in Hns.
        unfold valid_text in A. rewrite Et in A. assert (V : forallb valid_cp (32%N :: c :: r) = true) by (cbn [forallb] in *; rewrite A; reflexivity).
        unfold new_pretok, convert_to_string. rewrite Hns, V. cbn [bind ends]. split; [unfold valid_text; cbn [pt_norm]; rewrite Hns; exact V|]. split; [cbn [pt_norm]; rewrite Hns; discriminate|]. cbn [pt_splits]. constructor; [|constructor]. unfold byte_split. cbn [sp_text]. apply utf8_encs_bytes, V. }
    intros p0 H0. eapply ends_bind; [apply pt_split_ends; [|exact H0]|]. { intros u. destruct rx; [apply find_fixed_ends; cbn; auto | exact I]. }
    intros p1 (A & B & C). eapply ends_bind with (R := Forall byte_split).
    + clear - C Hb. induction C as [|x l Hx _ IHl]; [constructor|]. cbn [mapM]. eapply ends_bind with (R := byte_split).
      * eapply ends_bind; [apply byte_text_ends; [|exact Hx]|]. { intros Hs. split; [reflexivity|]. right. exists aps, rx. auto. } intros t Ht. exact Ht.
      * intros y Hy. eapply ends_bind; [apply IHl|]. intros ys Hys. cbn. constructor; assumption.
    + intros l Hl. cbn. split; [exact A|]. split; [exact B | exact Hl].
  - assert (Hl : forall q, In q l -> forall x, pre_part x q -> part x) by (intros q Hq x Hx; apply Hpart; eapply pp_in; eauto). clear Hpart. revert p H.
    induction l as [|q l IHl]; intros p H; [exact H|]. eapply ends_bind; [apply (IH q); [apply Hl; left; reflexivity | exact H]|]. intros p' H'. apply IHl; [|exact H']. intros x Hx. apply Hl. right. exact Hx.
Qed.
End Pre.

(** ** Models, rows, post-processing *)
Lemma wp_ends P Q w p : ends P Q (fun _ => True) (wp_tokenize w p).
Proof.
  unfold wp_tokenize. eapply ends_bind with (R := fun _ => True); [|intros; exact I]. induction (pt_splits p) as [|x l IH]; [exact I|]. cbn [mapM]. destruct (wp_word_spec w (sp_text x)) as (ts & -> & _). cbn [bind]. eapply ends_bind; [apply IH|]. intros; exact I.
Qed.
Lemma rows_ends P ty ns l : forall idx, ends P oob (fun _ => True) (into_rows ns ty idx l).
Proof.
  induction l as [|x l IH]; intros idx; [exact I|]. cbn [into_rows]. eapply ends_bind with (R := fun _ => True); [|intros; eapply ends_bind; [apply IH | intros; exact I]].
  unfold split_base. bnd (@vat_ends (nat * nat) P). intros r _. bnd (@vat_ends (nat * nat) P). intros; exact I.
Qed.
Lemma trim_ends P aps ids : forall i toks offs, ends P oob (fun _ => True) (trim_all aps i ids toks offs).
Proof. induction ids as [|x ids IH]; intros i toks offs; [exact I|]. cbn [trim_all]. destruct toks, offs; try reflexivity. eapply ends_bind; [apply IH | intros; exact I]. Qed.
Lemma process_ends P : forall q e add, ends P oob (fun _ => True) (process q e add).
Proof.
  fix IH 1. intros q e add. destruct q as [single specials|aps trim|l]; cbn [process].
  - exact I.
  - unfold byte_level_process. destruct trim; [|exact I]. assert (O : forall x, ends P oob (fun _ => True) (process_offsets aps x)) by (intros x; unfold process_offsets; eapply ends_bind; [apply trim_ends | intros; exact I]).
    eapply ends_bind; [apply O|]. intros e' _. eapply ends_bind with (R := fun _ => True); [|intros; exact I]. induction (en_overflowing e') as [|x l IHl]; [exact I|]. cbn [mapM]. eapply ends_bind; [apply O|]. intros y _. eapply ends_bind; [apply IHl | intros; exact I].
  - revert e. induction l as [|q l IHl]; intros e; [exact I|]. eapply ends_bind; [apply IH|]. intros e' _. apply IHl.
Qed.
Lemma pad_one_ends (P : exn -> Prop) Q target p e : ((target < 0)%Z -> p_dir p <> PUnknown -> P LengthError) -> ends P Q (fun _ => True) (pad_one target p e).
Proof.
  intros HP. unfold pad_one. cbv zeta. destruct (Z.leb_spec (size_t_of_int target) (Z.of_nat (length (en_ids e)))) as [|Hgt]; [exact I|].
  assert (HT : (target - Z.of_nat (length (en_ids e)) < 0)%Z -> (target < 0)%Z). { intros H. destruct (Z.lt_ge_cases target 0) as [|Hge]; [assumption|]. exfalso. assert (size_t_of_int target <= target)%Z by (unfold size_t_of_int; apply Z.mod_le; [exact Hge | reflexivity]). lia. }
  destruct (p_dir p) eqn:Ed; [| |exact I]; (destruct (Z.ltb_spec (target - Z.of_nat (length (en_ids e))) 0); [apply HP; [auto | discriminate] | exact I]).
Qed.
Lemma pad_ends (P : exn -> Prop) Q target p : ((target < 0)%Z -> p_dir p <> PUnknown -> P LengthError) -> forall e, ends P Q (fun _ => True) (pad target p e).
Proof.
  intros HP. fix IH 1. intros [i t k w o s m ov]. cbn [pad]. eapply ends_bind with (R := fun _ => True); [|intros; apply pad_one_ends, HP].
  induction ov as [|x l IHl]; [exact I|]. eapply ends_bind; [apply IH|]. intros y _. eapply ends_bind; [apply IHl | intros; exact I].
Qed.
