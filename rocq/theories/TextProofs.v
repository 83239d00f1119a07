(** Consequences of the reference tokenization. *)
From Verif Require Import Base BaseFacts Unicode UnicodeProofs Common Utils PostProcessor Normalizer PreTokenizer WordPiece AddedVocab Tokenizer NormSpec NormProofs ExtractProofs Spec EncFacts UtilsProofs PadProofs PreSpec PreProofs TzSpec TzProofs WpSpec WpProofs
  OffSpec OffProofs RefSpec RefProofs.
From Coq Require Import ZifyBool ZifyNat.

(** ** Later stages do not look at offsets *)
Definition fmap {A B} (f : A -> B) (r : res A) : res B := x <- r ;; Ok (f x).
Lemma fmap_bind {A B C} (f : B -> C) (r : res A) (k : A -> res B) : fmap f (x <- r ;; k x) = (x <- r ;; fmap f (k x)).
Proof. destruct r; reflexivity. Qed.
Lemma bind_fmap {A B C} (f : A -> B) (r : res A) (k : B -> res C) : (y <- fmap f r ;; k y) = (x <- r ;; k (f x)).
Proof. destruct r; reflexivity. Qed.
Lemma bind_ext {A B} (r : res A) (k k' : A -> res B) : (forall x, k x = k' x) -> (x <- r ;; k x) = (x <- r ;; k' x).
Proof. intros H. destruct r; [apply H | reflexivity..]. Qed.
Lemma bind_assoc {A B C} (r : res A) (k : A -> res B) (h : B -> res C) : (y <- (x <- r ;; k x) ;; h y) = (x <- r ;; y <- k x ;; h y).
Proof. destruct r; reflexivity. Qed.
Notation zz := (fun _ : nat * nat => (0, 0)).
Lemma vslice_map {A B} (f : A -> B) l a b : vslice (map f l) a b = fmap (map f) (vslice l a b).
Proof. unfold vslice. rewrite map_length. destruct (_ && _); [|reflexivity]. cbn [fmap bind]. rewrite skipn_map, firstn_map. reflexivity. Qed.
Lemma zslice_map {A B} (f : A -> B) l a b : zslice (map f l) a b = fmap (map f) (zslice l a b).
Proof. unfold zslice. destruct (0 <=? a)%Z; [apply vslice_map | reflexivity]. Qed.
Lemma slice_forget e r : slice_enc (forget_offsets e) r = fmap forget_offsets (slice_enc e r).
Proof.
  destruct e as [i t k w o s m ov]. destruct r as [a b]. unfold slice_enc. cbn [forget_offsets en_ids en_type_ids en_tokens en_words en_offsets en_smask en_amask]. rewrite zslice_map.
  destruct (zslice i a b); [|reflexivity..]. cbn [bind]. destruct (zslice t a b); [|reflexivity..]. cbn [bind]. destruct (zslice k a b); [|reflexivity..]. cbn [bind]. destruct (zslice w a b); [|reflexivity..]. cbn [bind].
  destruct (zslice o a b); [|reflexivity..]. cbn [bind fmap]. destruct (zslice s a b); [|reflexivity..]. cbn [bind]. destruct (zslice m a b); reflexivity.
Qed.
Lemma mapM_forget {A} (f g : A -> res encoding) l : (forall x, g x = fmap forget_offsets (f x)) -> mapM g l = fmap (map forget_offsets) (mapM f l).
Proof.
  intros H. induction l as [|x l IH]; [reflexivity|]. cbn [mapM]. rewrite H, IH. destruct (f x); [|reflexivity..]. cbn [bind fmap]. destruct (mapM f l); reflexivity.
Qed.
Lemma forget_ids e : en_ids (forget_offsets e) = en_ids e.
Proof. destruct e; reflexivity. Qed.
Lemma truncate_forget fuel e maxl stride d : truncate fuel (forget_offsets e) maxl stride d = fmap forget_offsets (truncate fuel e maxl stride d).
Proof.
  unfold truncate. rewrite forget_ids. destruct (_ <=? maxl)%Z; [reflexivity|]. destruct (maxl =? 0)%Z; [destruct e; reflexivity|].
  rewrite fmap_bind. apply bind_ext. intros [|first others]; [reflexivity|]. rewrite slice_forget, bind_fmap, fmap_bind. apply bind_ext. intros e0. rewrite (mapM_forget (slice_enc e)) by apply slice_forget. rewrite bind_fmap, fmap_bind. apply bind_ext.
  intros ov. destruct e0; reflexivity.
Qed.
Lemma truncation_forget fuel t e : truncate_encoding fuel t (forget_offsets e) = fmap forget_offsets (truncate_encoding fuel t e).
Proof.
  unfold truncate_encoding. rewrite forget_ids. destruct (t_max t =? 0)%Z; [apply truncate_forget|]. destruct (_ <=? _)%Z; [reflexivity|]. destruct (t_strat t); try reflexivity; [apply truncate_forget|]. destruct (_ <? _)%Z; [apply truncate_forget | reflexivity].
Qed.
Lemma map_zz k : map zz (repeat (0, 0) k) = repeat (0, 0) k.
Proof. induction k as [|k IH]; [reflexivity|]. cbn [repeat map]. rewrite IH. reflexivity. Qed.
Lemma pad_one_forget target p e : pad_one target p (forget_offsets e) = fmap forget_offsets (pad_one target p e).
Proof.
  unfold pad_one. rewrite forget_ids. destruct (_ <=? _)%Z; [reflexivity|]. destruct (p_dir p); try reflexivity; (destruct (_ <? 0)%Z; [reflexivity|]); cbn [fmap bind]; f_equal; destruct e as [i t k w o s m ov].
  - unfold pad_right. cbn [forget_offsets en_ids en_type_ids en_tokens en_words en_offsets en_smask en_amask en_overflowing]. rewrite map_app, map_zz. reflexivity.
  - unfold pad_left. cbn [forget_offsets en_ids en_type_ids en_tokens en_words en_offsets en_smask en_amask en_overflowing]. rewrite map_app, map_zz. reflexivity.
Qed.

Lemma pad_forget target p e : pad target p (forget_offsets e) = fmap forget_offsets (pad target p e).
Proof.
  induction e as [e IH] using encoding_induction. rewrite !pad_unfold. destruct e as [i t k w o s m ov]. cbn [forget_offsets en_ids en_type_ids en_tokens en_words en_offsets en_smask en_amask en_overflowing] in *.
  assert (K : mapM (pad target p) (map forget_offsets ov) = fmap (map forget_offsets) (mapM (pad target p) ov)).
  { clear - IH. induction IH as [|x ov Hx _ IH]; [reflexivity|]. cbn [map mapM]. rewrite Hx, IH. destruct (pad target p x); [|reflexivity..]. cbn [bind fmap]. destruct (mapM (pad target p) ov); reflexivity. }
  rewrite K, bind_fmap, fmap_bind. apply bind_ext. intros ov'. rewrite <- pad_one_forget. reflexivity.
Qed.
Lemma padding_forget p e : pad_encoding p (forget_offsets e) = fmap forget_offsets (pad_encoding p e).
Proof. unfold pad_encoding. assert (Et : pad_target p (forget_offsets e) = pad_target p e) by (unfold pad_target; rewrite forget_ids; reflexivity). rewrite Et. apply pad_forget. Qed.
Lemma parts_forget single specials add : forall e, template_parts single specials add (forget_offsets e) = map forget_offsets (template_parts single specials add e).
Proof.
  induction single as [|p single IH]; intros e; [reflexivity|]. cbn [template_parts]. destruct (leqb _ _).
  - cbn [map]. assert (K : (if leqb (pc_id p) (str "A") then set_type_ids (forget_offsets e) (repeat (pc_type p) (length (en_type_ids (forget_offsets e)))) else forget_offsets e)
      = forget_offsets (if leqb (pc_id p) (str "A") then set_type_ids e (repeat (pc_type p) (length (en_type_ids e))) else e)) by (destruct (leqb _ _); destruct e; reflexivity).
    rewrite K, IH. reflexivity.
  - destruct (leqb _ _); [|apply IH]. destruct add; [|apply IH]. cbn [map]. rewrite IH. f_equal. unfold special_enc. cbn [forget_offsets en_ids en_type_ids en_tokens en_words en_offsets en_smask en_amask en_overflowing]. rewrite map_zz. reflexivity.
Qed.
Lemma append_forget a b : append_enc (forget_offsets a) (forget_offsets b) = forget_offsets (append_enc a b).
Proof. destruct a as [i t k w o s m ov], b as [i2 t2 k2 w2 o2 s2 m2 ov2]. unfold append_enc. cbn [forget_offsets en_ids en_type_ids en_tokens en_words en_offsets en_smask en_amask en_overflowing]. rewrite map_app. reflexivity. Qed.
Lemma fold_forget l : forall a, fold_left append_enc (map forget_offsets l) (forget_offsets a) = forget_offsets (fold_left append_enc l a).
Proof. induction l as [|x l IH]; intros a; [reflexivity|]. cbn [map fold_left]. rewrite append_forget. apply IH. Qed.
Lemma trim_forget aps : forall ids j toks offs, trim_all aps j ids toks (map zz offs) = fmap (map zz) (trim_all aps j ids toks offs).
Proof.
  induction ids as [|i ids IH]; intros j toks offs; [reflexivity|]. cbn [trim_all]. destruct toks as [|t toks]; [reflexivity|]. destruct offs as [|o offs]; [reflexivity|]. cbn [map]. rewrite IH, bind_fmap, fmap_bind. apply bind_ext. intros r.
  cbn [fmap bind map]. rewrite trim_zero. reflexivity.
Qed.
Lemma process_offsets_forget aps e : process_offsets aps (forget_offsets e) = fmap forget_offsets (process_offsets aps e).
Proof.
  destruct e as [i t k w o s m ov]. unfold process_offsets. cbn [forget_offsets en_ids en_type_ids en_tokens en_words en_offsets en_smask en_amask en_overflowing]. rewrite trim_forget, bind_fmap, fmap_bind. apply bind_ext. intros r. reflexivity.
Qed.
Lemma process_forget add : forall pp e, process pp (forget_offsets e) add = fmap forget_offsets (process pp e add).
Proof.
  fix IH 1. intros [single specials|aps trim|l] e.
  - cbn [process fmap bind]. f_equal. unfold template_process. rewrite parts_forget. change empty_enc with (forget_offsets empty_enc) at 1. apply fold_forget.
  - cbn [process]. unfold byte_level_process. destruct trim; [|reflexivity]. rewrite process_offsets_forget, bind_fmap, fmap_bind. apply bind_ext. intros e'. destruct e' as [i t k w o s m ov]. cbn [forget_offsets en_ids en_type_ids en_tokens en_words en_offsets en_smask en_amask en_overflowing].
    assert (K : mapM (process_offsets aps) (map forget_offsets ov) = fmap (map forget_offsets) (mapM (process_offsets aps) ov)).
    { clear. induction ov as [|x ov IH]; [reflexivity|]. cbn [map mapM]. rewrite process_offsets_forget, IH. destruct (process_offsets aps x); [|reflexivity..]. cbn [bind fmap]. destruct (mapM (process_offsets aps) ov); reflexivity. }
    rewrite K, bind_fmap, fmap_bind. apply bind_ext. intros ov'. reflexivity.
  - cbn [process]. revert e. induction l as [|q r IHr]; intros e; [reflexivity|]. rewrite IH, bind_fmap, fmap_bind. apply bind_ext. intros e'. apply IHr.
Qed.
Lemma post_forget fuel t e add : do_post_process fuel t (forget_offsets e) add = fmap forget_offsets (do_post_process fuel t e add).
Proof.
  unfold do_post_process. rewrite fmap_bind. transitivity (e1 <- fmap forget_offsets (match tz_trunc t with Some tr => truncate_encoding fuel tr e | None => Ok e end) ;; e2 <- match tz_post t with Some pp => process pp e1 add | None => Ok e1 end ;; match tz_pad t with Some pd => pad_encoding pd e2 | None => Ok e2 end).
  { f_equal. destruct (tz_trunc t); [apply truncation_forget | reflexivity]. }
  rewrite bind_fmap. apply bind_ext. intros e1. rewrite fmap_bind. transitivity (e2 <- fmap forget_offsets (match tz_post t with Some pp => process pp e1 add | None => Ok e1 end) ;; match tz_pad t with Some pd => pad_encoding pd e2 | None => Ok e2 end).
  { f_equal. destruct (tz_post t); [apply process_forget | reflexivity]. }
  rewrite bind_fmap. apply bind_ext. intros e2. destruct (tz_pad t); [apply padding_forget | reflexivity].
Qed.
(** results of the later stages agree when the texts do, up to offsets *)
Lemma post_alike fuel t e e' add : forget_offsets e = forget_offsets e' -> fmap forget_offsets (do_post_process fuel t e add) = fmap forget_offsets (do_post_process fuel t e' add).
Proof. intros H. rewrite <- !post_forget, H. reflexivity. Qed.

(** ** Rows determine an encoding *)
Lemma rows_cols e : flat_parallel e -> map r_id (rows e) = en_ids e /\ map r_type (rows e) = en_type_ids e /\ map r_token (rows e) = en_tokens e /\ map r_word (rows e) = en_words e /\
  map r_off (rows e) = en_offsets e /\ map r_smask (rows e) = en_smask e /\ map r_amask (rows e) = en_amask e.
Proof.
  intros (H1 & H2 & H3 & H4 & H5 & H6). unfold rows. revert H1 H2 H3 H4 H5 H6. generalize (en_ids e) (en_type_ids e) (en_tokens e) (en_words e) (en_offsets e) (en_smask e) (en_amask e).
  induction l as [|a l IH]; intros [|b t] [|c k] [|d w] [|f o] [|g s] [|h m]; cbn [length]; try discriminate; intros; [auto 10|]. cbn [zip7 map r_id r_type r_token r_word r_off r_smask r_amask].
  destruct (IH t k w o s m) as (-> & -> & -> & -> & -> & -> & ->); try lia. auto 10.
Qed.
Lemma forall2_map_eq {A B} (f : A -> B) (R : A -> A -> Prop) l l' : (forall x y, R x y -> f x = f y) -> Forall2 R l l' -> map f l = map f l'.
Proof. intros H HF. induction HF as [|x y l l' Hx _ IH]; [reflexivity|]. cbn [map]. rewrite (H x y Hx), IH. reflexivity. Qed.
Lemma rows_forget e e' : flat_parallel e -> flat_parallel e' -> en_overflowing e = [] -> en_overflowing e' = [] -> Forall2 same_but_offset (rows e) (rows e') -> forget_offsets e = forget_offsets e'.
Proof.
  intros He He' O1 O2 HF. destruct (rows_cols e He) as (A1 & A2 & A3 & A4 & A5 & A6 & A7). destruct (rows_cols e' He') as (B1 & B2 & B3 & B4 & B5 & B6 & B7). set (L := rows e) in *. set (L' := rows e') in *. clearbody L L'. destruct e as [i t k w o s m ov], e' as [i' t' k' w' o' s' m' ov'].
  cbn [forget_offsets en_ids en_type_ids en_tokens en_words en_offsets en_smask en_amask en_overflowing] in *. subst. f_equal; try (eapply forall2_map_eq; [|exact HF]; intros x y (? & ? & ? & ? & ? & ?); assumption).
  rewrite !map_map. eapply forall2_map_eq; [|exact HF]. reflexivity.
Qed.
Lemma rows_equal e e' : flat_parallel e -> flat_parallel e' -> en_overflowing e = [] -> en_overflowing e' = [] -> rows e = rows e' -> e = e'.
Proof.
  intros He He' O1 O2 HF. destruct (rows_cols e He) as (A1 & A2 & A3 & A4 & A5 & A6 & A7). destruct (rows_cols e' He') as (B1 & B2 & B3 & B4 & B5 & B6 & B7). rewrite HF in *.
  destruct e as [i t k w o s m ov], e' as [i' t' k' w' o' s' m' ov']. cbn [en_ids en_type_ids en_tokens en_words en_offsets en_smask en_amask en_overflowing] in *. congruence.
Qed.

(** ** The words of a text *)
Definition keep (cur : wstr) : list wstr := match cur with [] => [] | _ => [cur] end.
Fixpoint bw (sp pu : N -> bool) (cur s : wstr) : list wstr :=
  match s with
  | [] => keep cur
  | c :: r => if sp c then keep cur ++ bw sp pu [] r else if pu c then keep cur ++ [c] :: bw sp pu [] r else bw sp pu (cur ++ [c]) r
  end.
Lemma bw_plain sp pu x : Forall (fun c => sp c = false /\ pu c = false) x -> forall cur r, bw sp pu cur (x ++ r) = bw sp pu (cur ++ x) r.
Proof. induction 1 as [|c x [H1 H2] _ IH]; intros cur r; cbn [app]; [rewrite app_nil_r; reflexivity|]. cbn [bw]. rewrite H1, H2, IH, <- app_assoc. reflexivity. Qed.
Lemma split_bw sp pu pos s l : bert_split sp pu pos s l -> map snd l = bw sp pu [] s.
Proof.
  induction 1 as [pos|pos c s l Hs H IH|pos c s l Hs Hp H IH|pos x s l Hx HF Hm H IH].
  - reflexivity.
  - cbn [bw]. rewrite Hs. exact IH.
  - cbn [bw map snd]. rewrite Hs, Hp, IH. reflexivity.
  - cbn [map snd]. rewrite bw_plain by exact HF. cbn [app]. rewrite IH. assert (K : keep x = [x]) by (destruct x; [congruence | reflexivity]). destruct s as [|c s]; cbn [bw]; [rewrite K; reflexivity|].
    rewrite K. destruct (sp c) eqn:Es; [reflexivity|]. destruct Hm as [Hm|Hm]; [congruence|]. rewrite Hm. reflexivity.
Qed.
Lemma bw_spaces sp pu g : Forall (fun c => sp c = true) g -> forall cur r, bw sp pu cur (g ++ r) = match g with [] => bw sp pu cur r | _ => keep cur ++ bw sp pu [] r end.
Proof.
  induction 1 as [|c g Hc Hg IH]; intros cur r; [reflexivity|]. cbn [app bw]. rewrite Hc, IH. destruct g; reflexivity.
Qed.
Lemma bw_gap sp pu cur s c r : sp c = true -> bw sp pu cur (s ++ c :: r) = bw sp pu cur s ++ bw sp pu [] r.
Proof.
  intros Hc. revert cur. induction s as [|d s IH]; intros cur; cbn [app bw]; [rewrite Hc; reflexivity|]. destruct (sp d); [rewrite IH, app_assoc; reflexivity|]. destruct (pu d); [rewrite IH, <- app_assoc; reflexivity | apply IH].
Qed.
Lemma bw_respaced sp pu s s' : respaced sp s s' -> forall cur, bw sp pu cur s = bw sp pu cur s'.
Proof.
  induction 1 as [g g' H1 H2|c s s' Hc _ IH|g g' s s' N1 N2 H1 H2 _ IH]; intros cur.
  - rewrite <- (app_nil_r g), <- (app_nil_r g'), (bw_spaces sp pu g H1), (bw_spaces sp pu g' H2). assert (K : keep cur ++ bw sp pu [] [] = keep cur) by apply app_nil_r. destruct g, g'; rewrite ?K; reflexivity.
  - cbn [bw]. rewrite Hc. destruct (pu c); rewrite IH; reflexivity.
  - rewrite (bw_spaces sp pu g H1), (bw_spaces sp pu g' H2), IH. destruct g, g'; congruence.
Qed.
Lemma bw_same_words sp pu s s' : same_words sp s s' -> bw sp pu [] s = bw sp pu [] s'.
Proof.
  intros (g & g' & r & r' & -> & -> & H1 & H2 & H). rewrite (bw_spaces sp pu g H1), (bw_spaces sp pu g' H2), (bw_respaced sp pu r r' H). destruct g, g'; reflexivity.
Qed.
(** texts with the same words have the same rows up to offsets *)
Lemma reference_words w sp pu s s' rs rs' : bw sp pu [] s = bw sp pu [] s' -> reference w sp pu s rs -> reference w sp pu s' rs' -> Forall2 same_but_offset rs rs'.
Proof. intros E (l & H1 & H2) (l' & K1 & K2). eapply words_rows_bases; [exact H2 | | exact K2]. rewrite (split_bw _ _ _ _ _ H1), (split_bw _ _ _ _ _ K1). symmetry. exact E. Qed.
(** concatenation of texts *)
Definition shift_word (k : nat) (r : row) : row := mkRow (r_id r) (r_type r) (r_token r) (option_map (Nat.add k) (r_word r)) (r_off r) (r_smask r) (r_amask r).
Lemma words_rows_app w i l rs : words_rows w i l rs -> forall l1 l2, l = l1 ++ l2 -> exists r1 r2, rs = r1 ++ r2 /\ words_rows w i l1 r1 /\ words_rows w (i + length l1) l2 r2.
Proof.
  induction 1 as [i|i pos x l ts rs Ht H IH]; intros l1 l2 E.
  - symmetry in E. apply app_eq_nil in E as [-> ->]. exists [], []. split; [reflexivity|]. split; constructor.
  - destruct l1 as [|p l1]; cbn [app] in E.
    + subst l2. exists [], (word_rows i pos ts ++ rs). split; [reflexivity|]. split; [constructor|]. cbn [length]. rewrite Nat.add_0_r. constructor; assumption.
    + injection E as <- ->. destruct (IH l1 l2 eq_refl) as (r1 & r2 & -> & R1 & R2). exists (word_rows i pos ts ++ r1), r2. split; [apply app_assoc|]. split; [constructor; assumption|]. cbn [length]. rewrite Nat.add_succ_r. exact R2.
Qed.
Lemma words_rows_shift w i l rs k : words_rows w i l rs -> words_rows w (k + i) l (map (shift_word k) rs).
Proof.
  induction 1 as [i|i pos x l ts rs Ht H IH]; [constructor|]. rewrite map_app. rewrite Nat.add_succ_r in IH. assert (E : map (shift_word k) (word_rows i pos ts) = word_rows (k + i) pos ts) by (unfold word_rows; rewrite map_map; reflexivity). rewrite E. constructor; assumption.
Qed.

(** ** Positions *)
Lemma rising_le l : forall a b, rising a b l -> a <= b.
Proof. induction l as [|[x y] l IH]; intros a b H; cbn [rising] in H; [exact H|]. destruct H as (H1 & H2 & H3). apply IH in H3. lia. Qed.
Lemma rising_weaken l : forall a a' b b', a' <= a -> b <= b' -> rising a b l -> rising a' b' l.
Proof. induction l as [|[x y] l IH]; intros a a' b b' Ha Hb H; cbn [rising] in *; [lia|]. destruct H as (H1 & H2 & H3). split; [lia|]. split; [exact H2|]. eapply IH; [|exact Hb | exact H3]. lia. Qed.
Lemma rising_app l : forall a m b l', rising a m l -> rising m b l' -> rising a b (l ++ l').
Proof. induction l as [|[x y] l IH]; intros a m b l' H H'; cbn [app rising] in *; [eapply rising_weaken; [exact H | | exact H']; lia|]. destruct H as (H1 & H2 & H3). split; [exact H1|]. split; [exact H2|]. eapply IH; eassumption. Qed.
Lemma tiles_rising a b l : tiles a b l -> rising a b l.
Proof. induction 1 as [a|a m b l Hm H IH]; cbn [rising]; [lia|]. split; [lia|]. split; [exact Hm | exact IH]. Qed.
Lemma tiles_shift k a b l : tiles a b l -> tiles (k + a) (k + b) (map (fun o => (k + fst o, k + snd o)) l).
Proof. induction 1 as [a|a m b l Hm H IH]; cbn [map fst snd]; constructor; [lia | exact IH]. Qed.
Lemma tiles_le a b l : tiles a b l -> a <= b.
Proof. induction 1; lia. Qed.
Lemma slice_join (u : ustr) a m b : a <= m -> m <= b -> slice u a m ++ slice u m b = slice u a b.
Proof.
  intros H1 H2. unfold slice. replace (b - a) with ((m - a) + (b - m)) by lia. replace (skipn m u) with (skipn (m - a) (skipn a u)) by (rewrite skipn_skipn'; f_equal; lia). generalize (skipn a u) as v. clear. intros v. revert v. induction (m - a) as [|k IH]; intros v; [reflexivity|]. destruct v as [|x v]; [cbn [skipn firstn app Nat.add]; apply firstn_nil|]. cbn [firstn skipn app Nat.add]. f_equal. apply IH.
Qed.

Lemma tiles_slices (u : ustr) a b l : tiles a b l -> flat_map (fun o => slice u (fst o) (snd o)) l = slice u a b.
Proof.
  induction 1 as [a|a m b l Hm H IH]; cbn [flat_map fst snd]; [unfold slice; rewrite Nat.sub_diag; reflexivity|]. rewrite IH. apply slice_join; [lia | eapply tiles_le; exact H].
Qed.
Lemma word_tokens_tiles w x ts : x <> [] -> word_tokens w x ts -> tiles 0 (units x) (map tk_off ts).
Proof.
  intros Hx [[_ H]|[_ ->]].
  - apply greedy_tiles in H as [H _]. exact H.
  - cbn [map unknown_token tk_off]. constructor; [|constructor]. pose proof (proj1 (units_0 x)). destruct (units x); [exfalso; auto | lia].
Qed.
Lemma split_spans sp pu pos s l : bert_split sp pu pos s l -> forall pre, units pre = pos ->
  rising pos (pos + units s) (map (fun p => (fst p, fst p + units (snd p))) l) /\ Forall (fun p => snd p <> []) l /\
  flat_map (fun p => slice (flat_map utf16_enc (pre ++ s)) (fst p) (fst p + units (snd p))) l = flat_map utf16_enc (filter (fun c => negb (sp c)) s).
Proof.
  assert (SL : forall pre x r : wstr, slice (flat_map utf16_enc (pre ++ x ++ r)) (units pre) (units pre + units x) = flat_map utf16_enc x).
  { clear. intros pre x s. unfold slice. rewrite !flat_map_app. unfold units. rewrite skipn_app, skipn_all, Nat.sub_diag. cbn [skipn app]. replace (_ + _ - _) with (length (flat_map utf16_enc x)) by lia. rewrite firstn_app, firstn_all, Nat.sub_diag. cbn [firstn]. apply app_nil_r. }
  induction 1 as [pos|pos c s l Hs H IH|pos c s l Hs Hp H IH|pos x s l Hx HF Hm H IH]; intros pre Hpre.
  - cbn. split; [lia|]. split; constructor.
  - destruct (IH (pre ++ [c])) as (I1 & I2 & I3); [rewrite units_app, Hpre; reflexivity|]. rewrite <- app_assoc in I3. cbn [app] in I3. split; [|split; [exact I2|]].
    + eapply rising_weaken; [| |exact I1]; [lia|]. rewrite (units_cons c s), units_1. lia.
    + cbn [filter]. rewrite Hs. cbn [negb]. exact I3.
  - destruct (IH (pre ++ [c])) as (I1 & I2 & I3); [rewrite units_app, Hpre; reflexivity|]. rewrite <- app_assoc in I3. cbn [app] in I3. split; [|split].
    + cbn [map rising fst snd]. split; [lia|]. split; [rewrite units_1; pose proof (cp_width_pos c); lia|]. eapply rising_weaken; [| |exact I1]; [lia|]. rewrite (units_cons c s), units_1. lia.
    + constructor; [discriminate | exact I2].
    + assert (Kf : filter (fun c => negb (sp c)) (c :: s) = c :: filter (fun c => negb (sp c)) s) by (cbn [filter]; rewrite Hs; reflexivity). rewrite Kf. cbn [flat_map fst snd]. rewrite <- I3. f_equal. pose proof (SL pre [c] s) as K. rewrite Hpre in K. cbn [app flat_map] in K. rewrite app_nil_r in K. exact K.
  - destruct (IH (pre ++ x)) as (I1 & I2 & I3); [rewrite units_app, Hpre; reflexivity|]. rewrite <- app_assoc in I3. split; [|split].
    + cbn [map rising fst snd]. split; [lia|]. split; [pose proof (proj1 (units_0 x)); destruct (units x); [exfalso; auto | lia]|]. eapply rising_weaken; [| |exact I1]; [lia|]. rewrite units_app. lia.
    + constructor; [exact Hx | exact I2].
    + cbn [flat_map fst snd]. rewrite filter_app, (flat_map_app utf16_enc (filter (fun c => negb (sp c)) x)). assert (Kx : filter (fun c => negb (sp c)) x = x).
      { clear - HF. induction HF as [|c x [Hc _] _ IHx]; [reflexivity|]. cbn [filter]. rewrite Hc. cbn [negb]. rewrite IHx. reflexivity. }
      rewrite Kx. apply f_equal2; [|exact I3]. pose proof (SL pre x s) as K. rewrite Hpre in K. exact K.
Qed.
Lemma words_rows_offsets w i l rs : words_rows w i l rs -> Forall (fun p => snd p <> []) l -> forall a b (u : ustr), rising a b (map (fun p => (fst p, fst p + units (snd p))) l) ->
  rising a b (map r_off rs) /\ flat_map (fun r => slice u (fst (r_off r)) (snd (r_off r))) rs = flat_map (fun p => slice u (fst p) (fst p + units (snd p))) l.
Proof.
  induction 1 as [i|i pos x l ts rs Ht H IH]; intros Hne a b u Hr; [split; [exact Hr | reflexivity]|]. inversion Hne as [|? ? Hx Hl]; subst. cbn [map rising fst snd] in *. destruct Hr as (R1 & R2 & R3). destruct (IH Hl _ b u R3) as [I1 I2].
  pose proof (tiles_shift pos _ _ _ (word_tokens_tiles w x ts Hx Ht)) as T. rewrite Nat.add_0_r in T.
  assert (Eo : map r_off (word_rows i pos ts) = map (fun o => (pos + fst o, pos + snd o)) (map tk_off ts)) by (unfold word_rows; rewrite !map_map; reflexivity). split.
  - rewrite map_app, Eo. eapply rising_app; [|exact I1]. eapply rising_weaken; [exact R1 | apply le_n | apply tiles_rising; exact T].
  - rewrite flat_map_app, I2. cbn [flat_map fst snd]. f_equal. rewrite <- (tiles_slices u _ _ _ T), <- Eo. rewrite !flat_map_concat_map, map_map. reflexivity.
Qed.
Lemma reference_offsets w sp pu n rs : reference w sp pu n rs -> rising 0 (units n) (map r_off rs) /\
  flat_map (fun r => slice (flat_map utf16_enc n) (fst (r_off r)) (snd (r_off r))) rs = flat_map utf16_enc (filter (fun c => negb (sp c)) n).
Proof.
  intros (l & H1 & H2). destruct (split_spans sp pu 0 n l H1 [] eq_refl) as (S1 & S2 & S3). destruct (words_rows_offsets w 0 l rs H2 S2 0 _ (flat_map utf16_enc n) S1) as [O1 O2]. split; [exact O1|]. rewrite O2. exact S3.
Qed.
