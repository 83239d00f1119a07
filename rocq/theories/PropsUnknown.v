(** C31 - C33 in every configuration: what becomes of the bytes of a word that are not in a BPE vocabulary. *)
From Verif Require Import Base BaseFacts Common PreTokenizer WordPiece WpSpec WpProofs Bpe BpeSpec BpeProofs BpeWord PropsBpe UnkSpec Env.
From Coq Require Import ZifyBool ZifyNat.
From Coq Require QArith_base.

Lemma fb_ids b p : map (fun i => (i, 1)) (fb b p) = fallback_ids b p.
Proof.
  unfold fb, fallback_ids, fallback_key. destruct (b_byte_fallback b); [|reflexivity]. induction p as [|y p IH]; [reflexivity|].
  cbn [flat_map]. rewrite map_app, IH. destruct (sfind (str "<000" ++ [y] ++ str ">") (b_vocab b)); reflexivity.
Qed.

Definition inv (b : bpe) (run : list bytes) (acc : seqn) (unk : option (Z * nat)) : Prop :=
  Forall (unknown b) run /\
  match unk_id b with
  | None => unk = None /\ acc = flat_map (fallback_ids b) run
  | Some u => if b_fuse_unk b
              then acc = flat_map (fallback_ids b) run /\ unk = match missed_count b run with 0 => None | n => Some (u, n) end
              else (unk = None /\ Forall (replaced b) run /\ acc = flat_map (fallback_ids b) run) \/
                   (exists r0 out0 m g, run = r0 ++ m :: g /\ delayed b u r0 out0 /\ missed b m /\ Forall (replaced b) g /\
                      acc = out0 ++ flat_map (fallback_ids b) g /\ unk = Some (u, 1))
  end.

Lemma inv_finish b run acc unk : inv b run acc unk -> run_symbols b run (acc ++ flush unk).
Proof.
  intros [_ H]. unfold run_symbols. destruct (unk_id b) as [u|].
  - destruct (b_fuse_unk b).
    + destruct H as [-> ->]. destruct (missed_count b run); reflexivity.
    + destruct H as [(-> & Hg & ->)|(r0 & out0 & m & g & -> & Hd & Hm & Hg & -> & ->)]; cbn [flush].
      * rewrite app_nil_r. constructor. exact Hg.
      * rewrite <- app_assoc. constructor; assumption.
  - destruct H as [-> ->]. cbn [flush]. apply app_nil_r.
Qed.

Lemma missed_count_app b x y : missed_count b (x ++ y) = missed_count b x + missed_count b y.
Proof. unfold missed_count. rewrite filter_app, app_length. reflexivity. Qed.

Lemma inv_hit b run acc unk p : unknown b p -> replaced b p -> inv b run acc unk -> inv b (run ++ [p]) (acc ++ fallback_ids b p) unk.
Proof.
  intros Hu Hr [Hf H]. split; [apply Forall_app; split; [exact Hf | constructor; [exact Hu | constructor]]|].
  assert (Hc : missed_count b [p] = 0).
  { unfold missed_count. cbn [filter]. unfold replaced in Hr. destruct (fallback_ids b p); [contradiction | reflexivity]. }
  destruct (unk_id b) as [u|].
  - destruct (b_fuse_unk b).
    + destruct H as [-> ->]. rewrite missed_count_app, Hc, Nat.add_0_r, flat_map_app. cbn [flat_map]. rewrite app_nil_r. split; reflexivity.
    + destruct H as [(-> & Hg & ->)|(r0 & out0 & m & g & -> & Hd & Hm & Hg & -> & ->)].
      * left. rewrite flat_map_app. cbn [flat_map]. rewrite app_nil_r. split; [reflexivity|]. split; [|reflexivity].
        apply Forall_app. split; [exact Hg | constructor; [exact Hr | constructor]].
      * right. exists r0, out0, m, (g ++ [p]). rewrite flat_map_app. cbn [flat_map]. rewrite app_nil_r, <- !app_assoc. cbn [app].
        repeat split; try assumption. apply Forall_app. split; [exact Hg | constructor; [exact Hr | constructor]].
  - destruct H as [-> ->]. rewrite flat_map_app. cbn [flat_map]. rewrite app_nil_r. split; reflexivity.
Qed.

Lemma inv_miss_none b run acc unk p : unk_id b = None -> unknown b p -> missed b p -> inv b run acc unk -> unk = None /\ inv b (run ++ [p]) acc None.
Proof.
  intros Hn Hu Hm [Hf H]. unfold inv. rewrite Hn in *. destruct H as [-> ->]. split; [reflexivity|].
  split; [apply Forall_app; split; [exact Hf | constructor; [exact Hu | constructor]]|]. split; [reflexivity|].
  rewrite flat_map_app. cbn [flat_map]. rewrite Hm, !app_nil_r. reflexivity.
Qed.

Lemma items_symbols b ps : forall run acc unk, inv b run acc unk -> word_symbols b (run ++ ps) (acc ++ items_of b ps unk).
Proof.
  assert (Hnone : inv b [] [] None).
  { split; [constructor|]. destruct (unk_id b); [destruct (b_fuse_unk b)|]; try (split; reflexivity). left. repeat split. constructor. }
  induction ps as [|p ps IH]; intros run acc unk H; cbn [items_of].
  - rewrite app_nil_r. constructor; [exact (proj1 H) | apply inv_finish; exact H].
  - destruct (sfind p (b_vocab b)) as [i|] eqn:Ep.
    + rewrite app_assoc. apply ws_known; [exact (proj1 H) | apply inv_finish; exact H | exact Ep|]. exact (IH [] [] None Hnone).
    + assert (Hp : unknown b p) by exact Ep. pose proof (fb_ids b p) as Hfb.
      replace (run ++ p :: ps) with ((run ++ [p]) ++ ps) by (rewrite <- app_assoc; reflexivity).
      destruct (fb b p) as [|f fs] eqn:Ef.
      * assert (Hm : missed b p) by (symmetry; exact Hfb). clear Hfb Ef.
        destruct (unk_id b) as [u|] eqn:Eu.
        -- assert (Hv : is_nil (b_unk b) = false /\ sfind (b_unk b) (b_vocab b) = Some u) by (unfold unk_id in Eu; destruct (is_nil (b_unk b)); [discriminate | auto]).
           destruct Hv as [Hv1 Hv2]. rewrite Hv1, Hv2. destruct H as [Hf H]. rewrite Eu in H.
           assert (Hf' : Forall (unknown b) (run ++ [p])) by (apply Forall_app; split; [exact Hf | constructor; [exact Hp | constructor]]).
           assert (Hc : missed_count b (run ++ [p]) = S (missed_count b run)).
           { rewrite missed_count_app. unfold missed_count at 2. cbn [filter]. unfold missed in Hm. rewrite Hm. cbn. lia. }
           destruct (b_fuse_unk b) eqn:Efu.
           ++ destruct H as [-> ->]. destruct (missed_count b run) as [|n] eqn:Emc; apply IH; unfold inv; rewrite Eu, Efu, Hc; (split; [exact Hf'|]);
                (split; [rewrite flat_map_app; cbn [flat_map]; rewrite Hm, !app_nil_r; reflexivity|]); [reflexivity|]. f_equal. f_equal. lia.
           ++ destruct H as [(-> & Hg & ->)|(r0 & out0 & m & g & -> & Hd & Hm0 & Hg & -> & ->)].
              ** apply IH. unfold inv. rewrite Eu, Efu. split; [exact Hf'|]. right. exists run, (flat_map (fallback_ids b) run), p, [].
                 repeat split; [constructor; exact Hg | exact Hm | constructor | cbn; rewrite app_nil_r; reflexivity].
              ** change ((u, 1) :: items_of b ps (Some (u, 1))) with ([(u, 1)] ++ items_of b ps (Some (u, 1))). rewrite app_assoc.
                 apply IH. unfold inv. rewrite Eu, Efu. split; [exact Hf'|]. right.
                 exists (r0 ++ m :: g), (out0 ++ flat_map (fallback_ids b) g ++ [(u, 1)]), p, [].
                 repeat split; [constructor; assumption | exact Hm | constructor | cbn; rewrite app_nil_r, <- app_assoc; reflexivity].
        -- destruct (inv_miss_none b run acc unk p Eu Hp Hm H) as [-> H'].
           assert (Hi : (if is_nil (b_unk b) then items_of b ps None
                         else items_of b ps match sfind (b_unk b) (b_vocab b) with Some i => Some (i, 1) | None => None end) = items_of b ps None).
           { unfold unk_id in Eu. destruct (is_nil (b_unk b)); [reflexivity | rewrite Eu; reflexivity]. }
           rewrite Hi. apply IH. exact H'.
      * rewrite Hfb, app_assoc. apply IH. apply inv_hit; [exact Hp | | exact H]. unfold replaced. rewrite <- Hfb. discriminate.
Qed.

(** C31, C32, C33. The symbols a word starts with, in every configuration of unknown token, fusing and byte fallback. *)
Theorem C33_initial_symbols : forall b s, word_symbols b (pieces (b_prefix b) (b_suffix b) s) (initial b s).
Proof.
  intros b s. destruct (initial_eq b s) as (-> & _). apply (items_symbols b _ [] [] None).
  split; [constructor|]. destruct (unk_id b); [destruct (b_fuse_unk b)|]; try (split; reflexivity). left. repeat split. constructor.
Qed.
Print Assumptions C33_initial_symbols.

Lemma total_len_app x y : total_len (x ++ y) = total_len x + total_len y.
Proof. induction x as [|p x IH]; [reflexivity|]. cbn [app total_len fold_right]. fold (total_len (x ++ y)) (total_len x). rewrite IH. lia. Qed.

Lemma fallback_len b p : total_len (fallback_ids b p) = length (fallback_ids b p).
Proof.
  unfold fallback_ids. destruct (b_byte_fallback b); [|reflexivity]. induction p as [|y p IH]; [reflexivity|]. cbn [flat_map].
  rewrite total_len_app, app_length, IH. destruct (sfind (str "<000" ++ [y] ++ str ">") (b_vocab b)); reflexivity.
Qed.

Lemma items_len b ps : forall unk, (unk_id b = None -> unk = None) ->
  total_len (items_of b ps unk) = fold_right (fun p n => piece_weight b p + n) 0 ps + match unk with Some (_, n) => n | None => 0 end.
Proof.
  induction ps as [|p ps IH]; intros unk Hu; cbn [items_of fold_right].
  - destruct unk as [[u n]|]; cbn [flush total_len fold_right snd]; lia.
  - unfold piece_weight at 1. destruct (sfind p (b_vocab b)) as [i|] eqn:Ep.
    + rewrite total_len_app. change (total_len ((i, 1) :: items_of b ps None)) with (1 + total_len (items_of b ps None)).
      rewrite IH by auto. destruct unk as [[u n]|]; cbn [flush total_len fold_right snd]; lia.
    + pose proof (fb_ids b p) as Hfb. destruct (fb b p) as [|f fs].
      * rewrite <- Hfb. cbn [map length]. unfold unk_id in *. destruct (is_nil (b_unk b)).
        -- rewrite IH by auto. lia.
        -- destruct (sfind (b_unk b) (b_vocab b)) as [u0|]; [|rewrite (Hu eq_refl), IH; auto].
           destruct unk as [[u n]|]; [|rewrite IH by discriminate; lia]. destruct (b_fuse_unk b).
           ++ rewrite IH by discriminate. lia.
           ++ change (total_len ((u, n) :: items_of b ps (Some (u0, 1)))) with (n + total_len (items_of b ps (Some (u0, 1)))). rewrite IH by discriminate. lia.
      * rewrite Hfb, total_len_app, fallback_len, IH by exact Hu. rewrite <- Hfb. cbn [map length]. lia.
Qed.

(** C31. For every model its constructor builds, every word and every history: when nothing of the word is covered the call is undefined
    behaviour; otherwise the tokens tile exactly the covered length, so that no byte is lost iff the covered length is the word's. *)
Theorem C31_accounting : forall E vocab merges d unk pre suf fu bf ig b c s,
  pq_ok E -> new_bpe vocab merges d unk pre suf fu bf ig = Ok b -> reach_cache E b c -> not_direct b s \/ ~ no_dropout b ->
  (covered b s = 0 -> snd (bpe_word E b c s) = Undef OobIndex) /\
  (0 < covered b s -> exists ts, snd (bpe_word E b c s) = Ok ts /\ total_len (token_seq ts) = covered b s /\ tiles 0 (covered b s) (map tk_off ts)).
Proof.
  intros E vocab merges d unk pre suf fu bf ig b c s Hq Hb Hr Hd.
  pose proof (new_bpe_merges _ _ _ _ _ _ _ _ _ _ Hb) as Hmv.
  destruct (initial_eq b s) as (Hi & Hp & _).
  assert (Htl : total_len (initial b s) = covered b s) by (rewrite Hi; rewrite items_len by auto; unfold covered; lia).
  rewrite (word_cold E b c s Hr Hd). destruct (merge_word_spec E b s Hq) as [[H1 ->]|[Hne (w & Hw & Hst & _)]].
  - rewrite H1 in Htl. cbn in Htl. split; [reflexivity | lia].
  - assert (Hpos : 0 < covered b s).
    { rewrite <- Htl. destruct (initial b s) as [|[i n] l]; [contradiction|]. inversion Hp; subst. cbn in *. lia. }
    split; [lia|]. intros _. rewrite Hw. cbn [bind].
    assert (Hvi : Forall (fun p => vocab_id (b_vocab b) (fst p)) (contents w)).
    { eapply steps_forall_vocab; [exact Hmv | exact Hst|]. rewrite Hi. apply items_vocab. discriminate. }
    destruct (word_to_tokens_ok (b_vocab b) w 0 Hvi) as [ts Hts]. exists ts. split; [exact Hts|].
    destruct (word_to_tokens_spec _ _ _ _ Hts) as (_ & Hseq & _ & Ht). rewrite Hseq, (steps_total_len _ _ _ Hst). split; [exact Htl|].
    specialize (Ht (steps_positive _ _ _ Hst Hp)). rewrite (steps_total_len _ _ _ Hst), Htl in Ht. exact Ht.
Qed.
Print Assumptions C31_accounting.

(** Without affixes every byte is accounted for exactly when there is an unknown token, or every byte is in the vocabulary or has its fallback. *)
Lemma pieces_plain s : pieces [] [] s = map (fun x => [x]) s.
Proof.
  unfold pieces. generalize (length s) at 1. intros n. generalize 0 as a. induction s as [|x s IH]; intros a; [reflexivity|].
  cbn [length seq combine map fst snd]. rewrite IH. f_equal. unfold piece_at. destruct (a =? 0), (S a =? n); reflexivity.
Qed.

Theorem C31_nothing_lost_iff : forall b s, b_prefix b = [] -> b_suffix b = [] ->
  (covered b s = length s <->
   unk_id b <> None \/ Forall (fun x => sfind [x] (b_vocab b) <> None \/ b_byte_fallback b = true /\ sfind (str "<000" ++ [x] ++ str ">") (b_vocab b) <> None) s).
Proof.
  intros b s Hp Hs. unfold covered. rewrite Hp, Hs, pieces_plain.
  assert (Hw : forall x, piece_weight b [x] <= 1 /\ (piece_weight b [x] = 1 <-> unk_id b <> None \/ sfind [x] (b_vocab b) <> None \/ b_byte_fallback b = true /\ sfind (str "<000" ++ [x] ++ str ">") (b_vocab b) <> None)).
  { intros x. unfold piece_weight, fallback_ids. destruct (sfind [x] (b_vocab b)); [split; [lia|]; split; [right; left; discriminate | reflexivity]|].
    destruct (b_byte_fallback b); cbn [flat_map].
    - destruct (sfind (str "<000" ++ [x] ++ str ">") (b_vocab b)); cbn [app length].
      + split; [lia|]. split; [right; right; split; [reflexivity | discriminate] | reflexivity].
      + destruct (unk_id b); (split; [lia|]); split; try discriminate; try reflexivity; [left; discriminate|]. intros [H|[H|[_ H]]]; contradiction.
    - cbn [length]. destruct (unk_id b); (split; [lia|]); split; try discriminate; try reflexivity; [left; discriminate|]. intros [H|[H|[H _]]]; [contradiction | contradiction | discriminate]. }
  induction s as [|x s IH]; [cbn; split; [right; constructor | reflexivity]|]. cbn [map fold_right length].
  assert (Hle : fold_right (fun p n => piece_weight b p + n) 0 (map (fun x => [x]) s) <= length s).
  { clear IH. induction s as [|y s IH]; [cbn; lia|]. cbn [map fold_right length]. destruct (Hw y). lia. }
  destruct (Hw x) as [Hx1 Hx2]. split.
  - intros H. assert (H1 : piece_weight b [x] = 1) by lia. apply Hx2 in H1. destruct H1 as [H1|H1]; [left; exact H1|].
    assert (H2 : fold_right (fun p n => piece_weight b p + n) 0 (map (fun x => [x]) s) = length s) by lia.
    apply IH in H2. destruct H2 as [H2|H2]; [left; exact H2 | right; constructor; assumption].
  - intros H. assert (H1 : piece_weight b [x] = 1) by (apply Hx2; destruct H as [H|H]; [left; exact H | inversion H; subst; right; assumption]).
    assert (H2 : fold_right (fun p n => piece_weight b p + n) 0 (map (fun x => [x]) s) = length s) by (apply IH; destruct H as [H|H]; [left; exact H | inversion H; subst; right; assumption]).
    lia.
Qed.
Print Assumptions C31_nothing_lost_iff.

(** C33. The tokens <0xNN> are never consulted: two models that agree on the pieces of the word, on the texts "<000y>" of their bytes and on the
    unknown token start every word with the same symbols, whatever else their vocabularies hold. *)
Theorem C33_hex_tokens_unused : forall b b' s,
  b_prefix b = b_prefix b' -> b_suffix b = b_suffix b' -> b_byte_fallback b = b_byte_fallback b' -> b_fuse_unk b = b_fuse_unk b' -> unk_id b = unk_id b' ->
  (forall p, In p (pieces (b_prefix b) (b_suffix b) s) -> sfind p (b_vocab b) = sfind p (b_vocab b')) ->
  (forall p y, In p (pieces (b_prefix b) (b_suffix b) s) -> In y p -> sfind (str "<000" ++ [y] ++ str ">") (b_vocab b) = sfind (str "<000" ++ [y] ++ str ">") (b_vocab b')) ->
  initial b s = initial b' s.
Proof.
  intros b b' s Hp Hs Hf Hfu Hu H1 H2. destruct (initial_eq b s) as (-> & _). destruct (initial_eq b' s) as (-> & _). rewrite <- Hp, <- Hs.
  assert (Hgen : forall ps unk, (unk_id b = None -> unk = None) -> (forall p, In p ps -> sfind p (b_vocab b) = sfind p (b_vocab b')) ->
    (forall p y, In p ps -> In y p -> sfind (str "<000" ++ [y] ++ str ">") (b_vocab b) = sfind (str "<000" ++ [y] ++ str ">") (b_vocab b')) ->
    items_of b ps unk = items_of b' ps unk).
  { clear H1 H2. intros ps. induction ps as [|p ps IH]; intros unk Hk H1 H2; [reflexivity|]. cbn [items_of].
    rewrite <- (H1 p (or_introl eq_refl)).
    assert (Hfb : fb b p = fb b' p).
    { unfold fb. rewrite <- Hf. destruct (b_byte_fallback b); [|reflexivity]. specialize (H2 p). clear - H2.
      assert (H3 : forall y, In y p -> sfind (fallback_key y) (b_vocab b) = sfind (fallback_key y) (b_vocab b')) by (intros y Hy; exact (H2 y (or_introl eq_refl) Hy)).
      clear H2. induction p as [|y p IH]; [reflexivity|]. cbn [flat_map]. rewrite (H3 y (or_introl eq_refl)), IH; [reflexivity|]. intros z Hz. apply H3. right; exact Hz. }
    rewrite <- Hfb, <- Hfu.
    assert (IH' : forall unk, (unk_id b = None -> unk = None) -> items_of b ps unk = items_of b' ps unk).
    { intros k Hk'. apply IH; [exact Hk' | intros q Hq; apply H1; right; exact Hq | intros q y Hq; apply H2; right; exact Hq]. }
    destruct (sfind p (b_vocab b)); [rewrite IH' by auto; reflexivity|].
    destruct (fb b p) as [|f fs]; [|rewrite IH' by exact Hk; reflexivity].
    assert (E1 : forall unk, (unk_id b = None -> unk = None) ->
       (if is_nil (b_unk b) then items_of b ps unk else match unk with
          | Some (u, n) => if b_fuse_unk b then items_of b ps (Some (u, n + 1)) else (u, n) :: items_of b ps match sfind (b_unk b) (b_vocab b) with Some i => Some (i, 1) | None => unk end
          | None => items_of b ps match sfind (b_unk b) (b_vocab b) with Some i => Some (i, 1) | None => None end end)
       = match unk_id b with None => items_of b ps None | Some v => match unk with
          | Some (u, n) => if b_fuse_unk b then items_of b ps (Some (u, n + 1)) else (u, n) :: items_of b ps (Some (v, 1))
          | None => items_of b ps (Some (v, 1)) end end).
    { intros k Hk'. unfold unk_id in *. destruct (is_nil (b_unk b)); [rewrite (Hk' eq_refl); reflexivity|].
      destruct (sfind (b_unk b) (b_vocab b)) as [v|]; [reflexivity | rewrite (Hk' eq_refl); reflexivity]. }
    assert (E2 : forall unk, (unk_id b' = None -> unk = None) ->
       (if is_nil (b_unk b') then items_of b' ps unk else match unk with
          | Some (u, n) => if b_fuse_unk b then items_of b' ps (Some (u, n + 1)) else (u, n) :: items_of b' ps match sfind (b_unk b') (b_vocab b') with Some i => Some (i, 1) | None => unk end
          | None => items_of b' ps match sfind (b_unk b') (b_vocab b') with Some i => Some (i, 1) | None => None end end)
       = match unk_id b' with None => items_of b' ps None | Some v => match unk with
          | Some (u, n) => if b_fuse_unk b then items_of b' ps (Some (u, n + 1)) else (u, n) :: items_of b' ps (Some (v, 1))
          | None => items_of b' ps (Some (v, 1)) end end).
    { intros k Hk'. unfold unk_id in *. destruct (is_nil (b_unk b')); [rewrite (Hk' eq_refl); reflexivity|].
      destruct (sfind (b_unk b') (b_vocab b')) as [v|]; [reflexivity | rewrite (Hk' eq_refl); reflexivity]. }
    rewrite (E1 unk Hk), (E2 unk) by (rewrite <- Hu; exact Hk). rewrite <- Hu. destruct (unk_id b) as [v|].
    - rewrite !IH' by discriminate. destruct unk as [[u n]|]; [|reflexivity]. rewrite IH' by discriminate. reflexivity.
    - apply IH'. reflexivity. }
  apply Hgen; [reflexivity | exact H1 | exact H2].
Qed.
Print Assumptions C33_hex_tokens_unused.

(** a case: byte fallback and an unknown token together; x has its fallback, y and z are missed *)
Definition both_bpe : bpe := mkBpe [(str "<unk>", 0); (str "a", 1); (str "<000x>", 2)]%Z [] (QArith_base.Qmake 0 1) (str "<unk>") [] [] false true false.
Example C33_both_case : initial both_bpe (str "ayxza") = [(1%Z, 1); (2%Z, 1); (0%Z, 1); (0%Z, 1); (1%Z, 1)] /\ covered both_bpe (str "ayxza") = 5.
Proof. vm_compute. split; reflexivity. Qed.
Example C31_case : exists b ts, new_bpe [(str "<unk>", 0); (str "a", 1); (str "<000x>", 2)]%Z [] (QArith_base.Qmake 0 1) (str "<unk>") [] [] false true false = Ok b /\
  snd (bpe_word test_env b [] (str "ayxza")) = Ok ts /\ total_len (token_seq ts) = covered b (str "ayxza").
Proof. eexists. eexists. split; [reflexivity|]. split; vm_compute; reflexivity. Qed.
