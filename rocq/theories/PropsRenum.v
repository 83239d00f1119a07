(** C143: renumbering a WordPiece vocabulary renumbers the ids and changes nothing else. *)
From Verif Require Import Base BaseFacts Unicode Common Utils PostProcessor Decoder Normalizer PreTokenizer WordPiece Bpe AddedVocab Tokenizer Env Config ConfigSpec ConfigProofs HistSpec PropsConfig RenumSpec.
From Coq Require Import ZifyBool ZifyNat ZifyN.
Import ListNotations.

(** ** The proof works with functions instead of relations *)
Definition rmap {A B} (g : A -> B) (r : res A) : res B := x <- r ;; Ok (g x).
Fixpoint menc (f : Z -> Z) (e : encoding) : encoding :=
  match e with mkEnc i t k w o s m ov => mkEnc (map f i) t k w o s m (map (menc f) ov) end.
Definition mtok (f : Z -> Z) (t : token) : token := mkTok (f (tk_id t)) (tk_value t) (tk_off t).
Definition msplit (f : Z -> Z) (s : split) : split := mkSplit (sp_text s) (sp_off s) (map (mtok f) (sp_tokens s)).
Definition mpt (f : Z -> Z) (p : pretok) : pretok := mkPt (pt_norm p) (map (msplit f) (pt_splits p)).
Definition mmap_r (f : Z -> Z) (m : zmap added_token) : zmap added_token := map (fun p => (f (fst p), snd p)) m.
Definition mav (f : Z -> Z) (a : added_vocab) : added_vocab :=
  mkAv (av_added a) (av_specials a) (av_special_set a) (ren_vocab f (av_map a)) (mmap_r f (av_map_r a)) (ren_vocab f (av_trie_norm a)) (ren_vocab f (av_trie_raw a)).
Definition msym (f : Z -> Z) (s : symbol) : symbol := mkSym (f (s_c s)) (s_prev s) (s_next s) (s_len s).
Definition mmerges (f : Z -> Z) (m : merge_map) : merge_map := map (fun p => ((f (fst (fst p)), f (snd (fst p))), (fst (snd p), f (snd (snd p))))) m.
Definition mbpe (f : Z -> Z) (b : bpe) : bpe := mkBpe (ren_vocab f (b_vocab b)) (mmerges f (b_merges b)) (b_dropout b) (b_unk b) (b_prefix b) (b_suffix b) (b_fuse_unk b) (b_byte_fallback b) (b_ignore_merges b).
Definition mcache (f : Z -> Z) (c : cache) : cache := map (fun p => (fst p, map (msym f) (snd p))) c.
Definition mmodel (f : Z -> Z) (m : model) : model := match m with MWordPiece w => MWordPiece (ren_wordpiece f w) | MBpe b c => MBpe (mbpe f b) (mcache f c) end.
Definition mtz (f : Z -> Z) (t : tokenizer) : tokenizer :=
  mkTz (tz_trunc t) (option_map (ren_pad f) (tz_pad t)) (option_map (mav f) (tz_av t)) (tz_norm t) (tz_pre t) (option_map (mmodel f) (tz_model t)) (tz_dec t) (option_map (ren_post f) (tz_post t)).

Lemma rmap_bind {A B C} (g : B -> C) (r : res A) (k : A -> res B) : rmap g (x <- r ;; k x) = (x <- r ;; rmap g (k x)).
Proof. unfold rmap. destruct r; reflexivity. Qed.
Lemma bind_rmap {A B C} (g : A -> B) (r : res A) (k : B -> res C) : (x <- rmap g r ;; k x) = (x <- r ;; k (g x)).
Proof. unfold rmap. destruct r; reflexivity. Qed.
Lemma bind_ext {A B} (r : res A) (k k' : A -> res B) : (forall x, k x = k' x) -> (x <- r ;; k x) = (x <- r ;; k' x).
Proof. intros H. destruct r; cbn; auto. Qed.
Lemma mapM_rmap {A B} (g : A -> A) (h : B -> B) (F F' : A -> res B) l : (forall x, F' (g x) = rmap h (F x)) -> mapM F' (map g l) = rmap (map h) (mapM F l).
Proof.
  intros H. induction l as [|x r IH]; cbn [map mapM]; [reflexivity|]. rewrite H, IH, !rmap_bind, bind_rmap. apply bind_ext. intros y. rewrite bind_rmap, !rmap_bind. reflexivity.
Qed.

Section Ids.
Context (f : Z -> Z).
Hypothesis Finj : forall i j, f i = f j -> i = j.

Lemma sfind_ren (k : list N) v : sfind k (ren_vocab f v) = option_map f (sfind k v).
Proof. induction v as [|[k' i] r IH]; cbn; [reflexivity|]. destruct (leqb k k'); [reflexivity | exact IH]. Qed.
Lemma sset_ren (k : list N) i v : sset k (f i) (ren_vocab f v) = ren_vocab f (sset k i v).
Proof. induction v as [|[k' j] r IH]; cbn; [reflexivity|]. destruct (leqb k k'); cbn; [reflexivity|]. unfold ren_vocab in IH. rewrite IH. reflexivity. Qed.
Lemma feqb i j : Z.eqb (f i) (f j) = Z.eqb i j.
Proof. destruct (Z.eqb_spec i j) as [->|N]; [apply Z.eqb_refl|]. apply Z.eqb_neq. intros K. exact (N (Finj _ _ K)). Qed.
Lemma zfind_keys {V} i (m : zmap V) : zfind (f i) (map (fun p => (f (fst p), snd p)) m) = zfind i m.
Proof. induction m as [|[j x] r IH]; cbn; [reflexivity|]. rewrite feqb. destruct (Z.eqb i j); [reflexivity | exact IH]. Qed.
Lemma zset_keys {V} i (x : V) m : zset (f i) x (map (fun p => (f (fst p), snd p)) m) = map (fun p => (f (fst p), snd p)) (zset i x m).
Proof. induction m as [|[j y] r IH]; cbn; [reflexivity|]. rewrite feqb. destruct (Z.eqb i j); cbn; [reflexivity|]. rewrite IH. reflexivity. Qed.
Lemma vocab_r_ren v : make_vocab_r (ren_vocab f v) = map (fun p => (f (fst p), snd p)) (make_vocab_r v).
Proof.
  unfold make_vocab_r. assert (G : forall l acc, fold_left (fun r (p : list N * Z) => zset (snd p) (fst p) r) (ren_vocab f l) (map (fun p => (f (fst p), snd p)) acc) = map (fun p => (f (fst p), snd p)) (fold_left (fun r (p : list N * Z) => zset (snd p) (fst p) r) l acc)).
  { induction l as [|[k i] r IH]; intros acc; cbn; [reflexivity|]. rewrite zset_keys. apply IH. }
  exact (G v []).
Qed.
Lemma id_to_token_ren v i : model_id_to_token (ren_vocab f v) (f i) = model_id_to_token v i.
Proof. unfold model_id_to_token. rewrite vocab_r_ren. apply zfind_keys. Qed.

(** *** Encodings *)
Lemma menc_eta e : menc f e = mkEnc (map f (en_ids e)) (en_type_ids e) (en_tokens e) (en_words e) (en_offsets e) (en_smask e) (en_amask e) (map (menc f) (en_overflowing e)).
Proof. destruct e; reflexivity. Qed.
Lemma ids_menc e : en_ids (menc f e) = map f (en_ids e).
Proof. destruct e; reflexivity. Qed.
Lemma zslice_map {A B} (g : A -> B) l a b : zslice (map g l) a b = rmap (map g) (zslice l a b).
Proof. unfold zslice, vslice. rewrite map_length. destruct (0 <=? a)%Z; [|reflexivity]. destruct (_ && _); [|reflexivity]. cbn. rewrite skipn_map, firstn_map. reflexivity. Qed.
Lemma slice_enc_ren e r : slice_enc (menc f e) r = rmap (menc f) (slice_enc e r).
Proof.
  destruct r as [a b]. rewrite menc_eta. unfold slice_enc. cbn [en_ids en_type_ids en_tokens en_words en_offsets en_smask en_amask]. rewrite zslice_map, bind_rmap, !rmap_bind. apply bind_ext. intros i.
  repeat (rewrite rmap_bind; apply bind_ext; intros ?). reflexivity.
Qed.
Lemma truncate_ren fuel e m s d : truncate fuel (menc f e) m s d = rmap (menc f) (truncate fuel e m s d).
Proof.
  unfold truncate. rewrite ids_menc, map_length. destruct (_ <=? m)%Z; [reflexivity|]. destruct (m =? 0)%Z; [destruct e; reflexivity|]. cbv zeta. rewrite rmap_bind. apply bind_ext. intros ranges.
  destruct ranges as [|r0 rs]; [reflexivity|]. rewrite slice_enc_ren, bind_rmap, rmap_bind. apply bind_ext. intros e0.
  rewrite <- (map_id rs) at 1. rewrite (mapM_rmap (fun r => r) (menc f) (slice_enc e)) by (intros r; apply slice_enc_ren). rewrite bind_rmap, rmap_bind. apply bind_ext. intros ov. destruct e0; reflexivity.
Qed.
Lemma truncate_encoding_ren fuel t e : truncate_encoding fuel t (menc f e) = rmap (menc f) (truncate_encoding fuel t e).
Proof.
  unfold truncate_encoding. rewrite ids_menc, map_length, !truncate_ren. destruct (_ =? 0)%Z; [reflexivity|]. destruct (_ <=? _)%Z; [reflexivity|]. destruct (t_strat t); try reflexivity. destruct (_ <? _)%Z; reflexivity.
Qed.
Lemma append_ren a b : append_enc (menc f a) (menc f b) = menc f (append_enc a b).
Proof. destruct a, b. cbn. rewrite map_app. reflexivity. Qed.
Lemma pad_one_ren n p e : pad_one n (ren_pad f p) (menc f e) = rmap (menc f) (pad_one n p e).
Proof.
  unfold pad_one. rewrite ids_menc, map_length. destruct (_ <=? _)%Z; [reflexivity|]. cbn [ren_pad p_dir]. cbv zeta.
  assert (R : forall k, repeat (f (p_id p)) k = map f (repeat (p_id p) k)) by (induction k; cbn; congruence).
  destruct (p_dir p); try destruct (_ <? 0)%Z; try reflexivity; unfold rmap, pad_left, pad_right; rewrite menc_eta; cbn [bind ren_pad p_id p_type_id p_token en_ids en_type_ids en_tokens en_words en_offsets en_smask en_amask en_overflowing menc]; rewrite R, map_app; reflexivity.
Qed.
Lemma pad_ren n p : forall e, pad n (ren_pad f p) (menc f e) = rmap (menc f) (pad n p e).
Proof.
  fix IH 1. intros [i t k w o s m ov]. cbn [menc pad].
  assert (G : (fix go (l : list encoding) : res (list encoding) := match l with [] => Ok [] | x :: r => y <- pad n (ren_pad f p) x ;; ys <- go r ;; Ok (y :: ys) end) (map (menc f) ov)
    = rmap (map (menc f)) ((fix go (l : list encoding) : res (list encoding) := match l with [] => Ok [] | x :: r => y <- pad n p x ;; ys <- go r ;; Ok (y :: ys) end) ov)).
  { induction ov as [|x r IHr]; [reflexivity|]. cbn [map]. rewrite (IH x), IHr, bind_rmap, rmap_bind. apply bind_ext. intros y. rewrite bind_rmap, rmap_bind. apply bind_ext. intros ys. reflexivity. }
  rewrite G, bind_rmap, rmap_bind. apply bind_ext. intros ov'. exact (pad_one_ren n p (mkEnc i t k w o s m ov')).
Qed.
Lemma pad_encoding_ren p e : pad_encoding (ren_pad f p) (menc f e) = rmap (menc f) (pad_encoding p e).
Proof.
  unfold pad_encoding. assert (T : pad_target (ren_pad f p) (menc f e) = pad_target p e) by (unfold pad_target; rewrite ids_menc, map_length; reflexivity). rewrite T. apply pad_ren.
Qed.

(** *** Post-processors *)
Lemma find_special_ren id l : find_special id (map (ren_special f) l) = ren_special f (find_special id l).
Proof. unfold find_special. induction l as [|s r IH]; cbn [map find]; [reflexivity|]. cbn [ren_special st_id]. destruct (leqb _ _); [reflexivity|]. exact IH. Qed.
Lemma special_enc_ren l p : special_enc (map (ren_special f) l) p = menc f (special_enc l p).
Proof. unfold special_enc. rewrite find_special_ren. cbn. rewrite map_length. reflexivity. Qed.
Lemma template_parts_ren single specials add : forall e, template_parts single (map (ren_special f) specials) add (menc f e) = map (menc f) (template_parts single specials add e).
Proof.
  induction single as [|p r IH]; intros e; [reflexivity|]. cbn [template_parts]. destruct (leqb (pc_kind p) _).
  - set (e1 := if leqb (pc_id p) (str "A") then set_type_ids e (repeat (pc_type p) (length (en_type_ids e))) else e).
    assert (K : (if leqb (pc_id p) (str "A") then set_type_ids (menc f e) (repeat (pc_type p) (length (en_type_ids (menc f e)))) else menc f e) = menc f e1) by (subst e1; destruct (leqb _ _); destruct e; reflexivity).
    cbv zeta. rewrite K, IH. reflexivity.
  - destruct (leqb _ _); [|apply IH]. destruct add; [|apply IH]. cbn [map]. rewrite special_enc_ren, IH. reflexivity.
Qed.
Lemma template_ren single specials add e : template_process single (map (ren_special f) specials) add (menc f e) = menc f (template_process single specials add e).
Proof.
  unfold template_process. rewrite template_parts_ren.
  assert (G : forall l a, fold_left append_enc (map (menc f) l) (menc f a) = menc f (fold_left append_enc l a)) by (induction l as [|x r IH]; intros a; cbn; [reflexivity | rewrite append_ren; apply IH]).
  exact (G _ empty_enc).
Qed.
Lemma trim_all_ren aps : forall ids i ts os, trim_all aps i (map f ids) ts os = trim_all aps i ids ts os.
Proof. induction ids as [|x r IH]; intros i ts os; [reflexivity|]. cbn. destruct ts, os; try reflexivity. rewrite IH. reflexivity. Qed.
Lemma process_offsets_ren aps e : process_offsets aps (menc f e) = rmap (menc f) (process_offsets aps e).
Proof. destruct e. unfold process_offsets. cbn. rewrite trim_all_ren, rmap_bind. apply bind_ext. reflexivity. Qed.
Lemma byte_level_ren aps trim e : byte_level_process aps trim (menc f e) = rmap (menc f) (byte_level_process aps trim e).
Proof.
  unfold byte_level_process. destruct trim; [|reflexivity]. rewrite process_offsets_ren, bind_rmap, rmap_bind. apply bind_ext. intros [i t k w o s m ov]. cbn [menc en_overflowing].
  rewrite (mapM_rmap (menc f) (menc f) (process_offsets aps)) by (intros x; apply process_offsets_ren). rewrite bind_rmap, rmap_bind. apply bind_ext. reflexivity.
Qed.
Lemma process_ren add : forall p e, process (ren_post f p) (menc f e) add = rmap (menc f) (process p e add).
Proof.
  fix IH 1. intros [single specials|aps trim|l] e; cbn [ren_post process].
  - rewrite template_ren. reflexivity.
  - apply byte_level_ren.
  - revert e. induction l as [|q r IHr]; intros e; [reflexivity|]. cbn [map]. rewrite (IH q), bind_rmap, rmap_bind. apply bind_ext. intros e'. apply IHr.
Qed.
Lemma do_post_ren fuel t e add : do_post_process fuel (mtz f t) (menc f e) add = rmap (menc f) (do_post_process fuel t e add).
Proof.
  unfold do_post_process. cbn [mtz tz_trunc tz_post tz_pad]. rewrite rmap_bind.
  assert (A : match tz_trunc t with Some tr => truncate_encoding fuel tr (menc f e) | None => Ok (menc f e) end = rmap (menc f) match tz_trunc t with Some tr => truncate_encoding fuel tr e | None => Ok e end) by (destruct (tz_trunc t); [apply truncate_encoding_ren | reflexivity]).
  rewrite A, bind_rmap. apply bind_ext. intros e1. rewrite rmap_bind.
  assert (B : match option_map (ren_post f) (tz_post t) with Some pp => process pp (menc f e1) add | None => Ok (menc f e1) end = rmap (menc f) match tz_post t with Some pp => process pp e1 add | None => Ok e1 end) by (destruct (tz_post t); [apply process_ren | reflexivity]).
  rewrite B, bind_rmap. apply bind_ext. intros e2. destruct (tz_pad t); [apply pad_encoding_ren | reflexivity].
Qed.
End Ids.

Section Tokens.
Context (f : Z -> Z) (v : smap Z).
Hypothesis Fex : exchange f (vocab_size v).
Let Finj : forall i j, f i = f j -> i = j := proj1 Fex.

(** *** Splits *)
Lemma is_nil_map {A B} (g : A -> B) l : is_nil (map g l) = is_nil l.
Proof. destruct l; reflexivity. Qed.
Lemma split_normalized_ren s fn b : split_normalized (msplit f s) fn b = rmap (map (msplit f)) (split_normalized s fn b).
Proof.
  unfold split_normalized. cbn [msplit sp_text sp_off]. rewrite rmap_bind. apply bind_ext. intros ms. cbn. f_equal. rewrite map_map. apply map_ext. intros [[a z] m]. reflexivity.
Qed.
Lemma split_all_ren fn b l : split_all fn b (map (msplit f) l) = rmap (map (msplit f)) (split_all fn b l).
Proof.
  induction l as [|s r IH]; [reflexivity|]. cbn [map split_all]. rewrite rmap_bind.
  assert (K : (if is_nil (sp_tokens (msplit f s)) then split_normalized (msplit f s) fn b else Ok [msplit f s]) = rmap (map (msplit f)) (if is_nil (sp_tokens s) then split_normalized s fn b else Ok [s])).
  { cbn [msplit sp_tokens]. rewrite is_nil_map. destruct (is_nil (sp_tokens s)); [apply split_normalized_ren | reflexivity]. }
  rewrite K, bind_rmap. apply bind_ext. intros here. rewrite IH, bind_rmap, rmap_bind. apply bind_ext. intros rest. cbn. rewrite map_app. reflexivity.
Qed.
Lemma pt_split_ren fn b p : pt_split fn b (mpt f p) = rmap (mpt f) (pt_split fn b p).
Proof. unfold pt_split. cbn [mpt pt_splits pt_norm]. rewrite split_all_ren, bind_rmap, rmap_bind. apply bind_ext. reflexivity. Qed.
Lemma new_pretok_ren ns : rmap (mpt f) (new_pretok ns) = new_pretok ns.
Proof. unfold new_pretok, rmap. destruct (convert_to_string _); cbn; try reflexivity. Qed.
Lemma add_prefix_ren E p : add_prefix E (mpt f p) = rmap (mpt f) (add_prefix E p).
Proof.
  unfold add_prefix. cbn [mpt pt_norm]. destruct (ns_text (pt_norm p)); [reflexivity|]. destruct (e_iswspace E n); [reflexivity|]. rewrite rmap_bind. apply bind_ext. intros ns. rewrite new_pretok_ren. reflexivity.
Qed.
Lemma byte_level_pre_ren E aps rx p : byte_level_pre_tokenize E aps rx (mpt f p) = rmap (mpt f) (byte_level_pre_tokenize E aps rx p).
Proof.
  unfold byte_level_pre_tokenize. rewrite rmap_bind.
  assert (K : (if aps then add_prefix E (mpt f p) else Ok (mpt f p)) = rmap (mpt f) (if aps then add_prefix E p else Ok p)) by (destruct aps; [apply add_prefix_ren | reflexivity]).
  rewrite K, bind_rmap. apply bind_ext. intros p0. rewrite rmap_bind, pt_split_ren, bind_rmap. apply bind_ext. intros p1. cbn [mpt pt_splits pt_norm].
  rewrite (mapM_rmap (msplit f) (msplit f) (fun s => t <- byte_level_text E (sp_text s) ;; Ok (mkSplit t (sp_off s) (sp_tokens s)))).
  - rewrite bind_rmap, rmap_bind. apply bind_ext. reflexivity.
  - intros s. cbn [msplit sp_text sp_off sp_tokens]. rewrite rmap_bind. apply bind_ext. reflexivity.
Qed.
Lemma pre_tokenize_ren E : forall t p, pre_tokenize E t (mpt f p) = rmap (mpt f) (pre_tokenize E t p).
Proof.
  fix IH 1. intros [|pat b i|aps rx|l] p; cbn [pre_tokenize].
  - unfold bert_pre_tokenize. rewrite pt_split_ren, bind_rmap, rmap_bind. apply bind_ext. intros p1. apply pt_split_ren.
  - apply pt_split_ren.
  - apply byte_level_pre_ren.
  - revert p. induction l as [|q r IHr]; intros p; [reflexivity|]. rewrite (IH q), bind_rmap, rmap_bind. apply bind_ext. intros p'. apply IHr.
Qed.

(** *** Added tokens *)
Lemma sset_fold l : forall acc, fold_left (fun m (p : list N * Z) => sset (fst p) (snd p) m) (ren_vocab f l) (ren_vocab f acc) = ren_vocab f (fold_left (fun m (p : list N * Z) => sset (fst p) (snd p) m) l acc).
Proof. induction l as [|[k i] r IH]; intros acc; [reflexivity|]. cbn. rewrite sset_ren. apply IH. Qed.
Lemma word_ids_ren trie : word_ids (ren_vocab f trie) = ren_vocab f (word_ids trie).
Proof. exact (sset_fold trie []). Qed.
Lemma raw_matches_ren ids u : forall todo i cur, raw_matches (ren_vocab f ids) u todo i cur = map (fun p => (fst p, f (snd p))) (raw_matches ids u todo i cur).
Proof.
  induction todo as [|n IH]; intros i cur; cbn [raw_matches].
  - destruct (i =? cur); [reflexivity|]. rewrite sfind_ren. destruct (sfind _ ids); reflexivity.
  - cbv zeta. rewrite sfind_ren. destruct (sfind (to_utf8 (usub u cur (i - cur))) ids) as [k|]; cbn [option_map]; rewrite IH; reflexivity.
Qed.
Definition mmatch (p : option Z * (nat * nat)) : option Z * (nat * nat) := (option_map f (fst p), snd p).
Lemma zfind_mmap i m : zfind (f i) (mmap_r f m) = zfind i m.
Proof. exact (zfind_keys f Finj i m). Qed.
Lemma resolve_ren s total : forall l start m, resolve_matches s total start (mmap_r f m) (map (fun p => (fst p, f (snd p))) l) = rmap (fun r => (mmap_r f (fst r), map mmatch (snd r))) (resolve_matches s total start m l).
Proof.
  induction l as [|[[a b] i] r IH]; intros start m; cbn [map resolve_matches fst snd].
  - cbn. destruct (start =? total); reflexivity.
  - rewrite zfind_mmap.
    assert (K : (match zfind i m with Some t => (t, mmap_r f m) | None => (default_added_token, mmap_r f m ++ [(f i, default_added_token)]) end)
      = (fst (match zfind i m with Some t => (t, m) | None => (default_added_token, m ++ [(i, default_added_token)]) end), mmap_r f (snd (match zfind i m with Some t => (t, m) | None => (default_added_token, m ++ [(i, default_added_token)]) end)))).
    { destruct (zfind i m); [reflexivity|]. cbn. unfold mmap_r. rewrite map_app. reflexivity. }
    rewrite K. destruct (match zfind i m with Some t => (t, m) | None => (default_added_token, m ++ [(i, default_added_token)]) end) as [tok m']. cbn [fst snd].
    rewrite rmap_bind. apply bind_ext. intros keep. destruct keep; cbn [negb]; [|apply IH]. rewrite rmap_bind. apply bind_ext. intros a'. rewrite rmap_bind. apply bind_ext. intros b'.
    rewrite IH, bind_rmap, rmap_bind. apply bind_ext. intros [m2 rest]. unfold rmap. cbn [fst snd bind]. rewrite map_app. destruct (start <? a'); reflexivity.
Qed.
Lemma find_ren m s trie : av_find_matches (mmap_r f m) s (ren_vocab f trie) = rmap (fun r => (mmap_r f (fst r), map mmatch (snd r))) (av_find_matches m s trie).
Proof. unfold av_find_matches. cbv zeta. rewrite word_ids_ren, raw_matches_ren. apply resolve_ren. Qed.
Lemma resolve_map_ren s : forall l m, resolve_map s (mmap_r f m) (map (fun p => (fst p, f (snd p))) l) = mmap_r f (resolve_map s m l).
Proof.
  induction l as [|[[a b] i] r IH]; intros m; cbn [map resolve_map fst snd]; [reflexivity|]. rewrite zfind_mmap.
  assert (K : (match zfind i m with Some t => (t, mmap_r f m) | None => (default_added_token, mmap_r f m ++ [(f i, default_added_token)]) end)
      = (fst (match zfind i m with Some t => (t, m) | None => (default_added_token, m ++ [(i, default_added_token)]) end), mmap_r f (snd (match zfind i m with Some t => (t, m) | None => (default_added_token, m ++ [(i, default_added_token)]) end)))).
  { destruct (zfind i m); [reflexivity|]. cbn. unfold mmap_r. rewrite map_app. reflexivity. }
  rewrite K. destruct (match zfind i m with Some t => (t, m) | None => (default_added_token, m ++ [(i, default_added_token)]) end) as [tok m']. cbn [fst snd].
  match goal with |- match ?x with _ => _ end = _ => destruct x end; [apply IH | reflexivity | reflexivity | reflexivity].
Qed.
Lemma find_map_ren m s trie : find_map (mmap_r f m) s (ren_vocab f trie) = mmap_r f (find_map m s trie).
Proof. unfold find_map. cbv zeta. rewrite word_ids_ren, raw_matches_ren. apply resolve_map_ren. Qed.
Lemma raw_splits_ren text : forall l, raw_splits text (map mmatch l) = rmap (map (msplit f)) (raw_splits text l).
Proof.
  induction l as [|[o [a b]] r IH]; [reflexivity|]. cbn [map mmatch fst snd raw_splits]. rewrite rmap_bind. apply bind_ext. intros x. rewrite rmap_bind. apply bind_ext. intros value.
  rewrite IH, bind_rmap, rmap_bind. apply bind_ext. intros rest. destruct o; reflexivity.
Qed.
Lemma norm_splits_ren text base : forall l, norm_splits text base (map mmatch l) = rmap (map (msplit f)) (norm_splits text base l).
Proof.
  induction l as [|[o [a b]] r IH]; [reflexivity|]. cbn [map mmatch fst snd norm_splits]. rewrite rmap_bind. apply bind_ext. intros x. rewrite rmap_bind. apply bind_ext. intros value.
  rewrite IH, bind_rmap, rmap_bind. apply bind_ext. intros rest. destruct o; reflexivity.
Qed.
Definition mres (r : nstring * zmap added_token * list split) : nstring * zmap added_token * list split := (fst (fst r), mmap_r f (snd (fst r)), map (msplit f) (snd r)).
Lemma normalize_splits_ren E norm trie : forall l ns m ending, normalize_splits E norm (ren_vocab f trie) ns (mmap_r f m) ending (map (msplit f) l) = rmap mres (normalize_splits E norm trie ns m ending l).
Proof.
  induction l as [|s r IH]; intros ns m ending; [reflexivity|]. cbn [map normalize_splits]. destruct s as [x o ts]. cbn [msplit sp_tokens sp_text sp_off]. destruct ts as [|t ts]; cbn [map].
  - rewrite rmap_bind. apply bind_ext. intros y. cbv zeta. rewrite rmap_bind. apply bind_ext. intros sub. rewrite rmap_bind. apply bind_ext. intros ns'. rewrite rmap_bind. apply bind_ext. intros sentence.
    rewrite find_ren, bind_rmap, rmap_bind. apply bind_ext. intros [m' ms]. cbn [fst snd]. rewrite norm_splits_ren, bind_rmap, rmap_bind. apply bind_ext. intros here.
    rewrite IH, bind_rmap, rmap_bind. apply bind_ext. intros [[a b] c]. cbn. unfold mres. cbn. rewrite map_app. reflexivity.
  - cbv zeta. rewrite IH, bind_rmap, rmap_bind. apply bind_ext. intros [[a b] c]. reflexivity.
Qed.
Lemma extract_ren E a norm s : extract_and_normalize E (mav f a) norm s = rmap (fun r => (mmap_r f (fst r), mpt f (snd r))) (extract_and_normalize E a norm s).
Proof.
  unfold extract_and_normalize. rewrite rmap_bind. rewrite <- (new_pretok_ren (new_nstring s)) at 1. rewrite bind_rmap. apply bind_ext. intros p. cbn [mpt pt_norm pt_splits mav av_map_r av_trie_raw av_trie_norm].
  rewrite rmap_bind. apply bind_ext. intros sentence. rewrite find_ren, bind_rmap, rmap_bind. apply bind_ext. intros [m1 ms]. cbn [fst snd]. rewrite raw_splits_ren, bind_rmap, rmap_bind. apply bind_ext. intros raw. cbv zeta.
  assert (K : match map (msplit f) raw with [] => map (msplit f) (pt_splits p) | _ :: _ => map (msplit f) raw end = map (msplit f) match raw with [] => pt_splits p | _ :: _ => raw end) by (destruct raw; reflexivity).
  rewrite K, normalize_splits_ren, bind_rmap, rmap_bind. apply bind_ext. intros [[a' b'] c']. cbn. unfold mpt. cbn. destruct c'; reflexivity.
Qed.
Lemma normalize_map_ren E norm trie : forall l ns m ending, normalize_map E norm (ren_vocab f trie) ns (mmap_r f m) ending (map (msplit f) l) = mmap_r f (normalize_map E norm trie ns m ending l).
Proof.
  induction l as [|s r IH]; intros ns m ending; [reflexivity|]. cbn [map normalize_map]. destruct s as [x o ts]. cbn [msplit sp_tokens sp_text sp_off]. destruct ts as [|t ts]; cbn [map]; [|apply IH].
  match goal with |- match ?y with _ => _ end = _ => destruct y as [[[sub ns'] sentence]| | |] end; try reflexivity.
  rewrite find_ren, bind_rmap, find_map_ren.
  assert (K : (x0 <- av_find_matches m sentence trie ;; (let '(_, ms) := (mmap_r f (fst x0), map mmatch (snd x0)) in norm_splits (ns_text sub) ending ms)) = rmap (map (msplit f)) ('(_, ms) <- av_find_matches m sentence trie ;; norm_splits (ns_text sub) ending ms)).
  { rewrite rmap_bind. apply bind_ext. intros [m' ms]. apply norm_splits_ren. }
  rewrite K. destruct ('(_, ms) <- av_find_matches m sentence trie ;; norm_splits (ns_text sub) ending ms); cbn [rmap bind]; try reflexivity. apply IH.
Qed.
Lemma extract_map_ren E a norm s : extract_map E (mav f a) norm s = mmap_r f (extract_map E a norm s).
Proof.
  unfold extract_map. rewrite <- (new_pretok_ren (new_nstring s)) at 1. rewrite bind_rmap.
  destruct (new_pretok (new_nstring s)) as [p| | |]; cbn [bind]; try reflexivity. cbn [mpt pt_norm pt_splits]. destruct (convert_to_string (ns_text (pt_norm p))) as [sentence| | |]; cbn [bind]; try reflexivity. change (pt_norm (mpt f p)) with (pt_norm p).
  cbv zeta. cbn [mav av_map_r av_trie_raw av_trie_norm]. rewrite find_map_ren, find_ren, bind_rmap.
  assert (K : (x0 <- av_find_matches (av_map_r a) sentence (av_trie_raw a) ;; (let '(_, ms) := (mmap_r f (fst x0), map mmatch (snd x0)) in raw_splits (ns_text (pt_norm p)) ms)) = rmap (map (msplit f)) ('(_, ms) <- av_find_matches (av_map_r a) sentence (av_trie_raw a) ;; raw_splits (ns_text (pt_norm p)) ms)).
  { rewrite rmap_bind. apply bind_ext. intros [m' ms]. apply raw_splits_ren. }
  rewrite K. destruct ('(_, ms) <- av_find_matches (av_map_r a) sentence (av_trie_raw a) ;; raw_splits (ns_text (pt_norm p)) ms) as [raw| | |]; cbn [rmap bind]; try reflexivity.
  assert (L : match map (msplit f) raw with [] => map (msplit f) (pt_splits p) | _ :: _ => map (msplit f) raw end = map (msplit f) match raw with [] => pt_splits p | _ :: _ => raw end) by (destruct raw; reflexivity).
  cbn [mpt pt_splits]. rewrite L. apply normalize_map_ren.
Qed.

(** *** Adding tokens *)
Lemma below i : (i < vocab_size v)%Z -> (f i < vocab_size v)%Z.
Proof. destruct Fex as [I S]. intros H. destruct (Z.lt_ge_cases (f i) (vocab_size v)) as [|G]; [assumption|]. assert (K : f i = i) by (apply I; apply S; lia). lia. Qed.
Lemma size_ren : vocab_size (ren_vocab f v) = vocab_size v.
Proof. unfold vocab_size, ren_vocab. rewrite map_length. reflexivity. Qed.
Lemma max_ren m : match max_value m, max_value (ren_vocab f m) with
  | None, None => True
  | Some x, Some y => (0 < vocab_size v /\ x < vocab_size v /\ y < vocab_size v)%Z \/ y = x /\ (vocab_size v = 0 \/ vocab_size v <= x)%Z
  | _, _ => False end.
Proof.
  assert (B := below). assert (S := proj2 Fex). assert (N0 : (0 <= vocab_size v)%Z) by (unfold vocab_size; lia). set (n := vocab_size v) in *.
  induction m as [|[k i] r IH]; cbn [ren_vocab map max_value fst snd]; [exact I|]. unfold ren_vocab in IH.
  assert (G : (n = 0 \/ n <= i)%Z -> f i = i) by (intros H; apply S; lia). specialize (B i).
  destruct (max_value r) as [x|], (max_value (map (fun p : list N * Z => (fst p, f (snd p))) r)) as [y|]; try contradiction; lia.
Qed.
Lemma choose_ren a content : choose_id (mav f a) (Some (ren_vocab f v)) content = rmap f (choose_id a (Some v) content).
Proof.
  unfold choose_id. cbn [mav av_map]. rewrite sfind_ren. destruct (sfind content (av_map a)); [reflexivity|]. cbn [option_map]. unfold token_to_id. rewrite sfind_ren. destruct (sfind content v); [reflexivity|]. cbn [option_map].
  rewrite size_ren. assert (M := max_ren (av_map a)). assert (S := proj2 Fex). assert (N0 : (0 <= vocab_size v)%Z) by (unfold vocab_size; lia). set (n := vocab_size v) in *.
  destruct (max_value (av_map a)) as [x|], (max_value (ren_vocab f (av_map a))) as [y|]; try contradiction.
  - destruct M as [(P & L1 & L2)|[-> G]].
    + assert (Q : (n =? 0)%Z = false /\ (n <=? x)%Z = false /\ (n <=? y)%Z = false) by lia. destruct Q as (-> & -> & ->). cbn. rewrite S by lia. reflexivity.
    + assert (Q : ((n =? 0) || (n <=? x))%Z = true) by lia. rewrite Q. cbn. rewrite S by lia. reflexivity.
  - destruct (n =? 0)%Z; [reflexivity|]. cbn. rewrite S by lia. reflexivity.
Qed.
Lemma assign_ren alias : forall l a, assign_ids alias (mav f a) (Some (ren_vocab f v)) l = rmap (mav f) (assign_ids alias a (Some v) l).
Proof.
  induction l as [|t r IH]; intros a; cbn [assign_ids]; [reflexivity|]. destruct (is_nil (at_content t)); [apply IH|]. rewrite choose_ren, bind_rmap, rmap_bind. apply bind_ext. intros i. cbv zeta.
  cbn [mav av_added av_specials av_special_set av_map av_map_r av_trie_norm av_trie_raw]. unfold mmap_r at 1. unfold mmap_r at 1. rewrite !sset_ren, !(zset_keys f Finj).
  destruct (smem _ _); [exact (IH (mkAv _ _ _ _ _ _ _))|]. destruct alias; [reflexivity|]. exact (IH (mkAv _ _ _ _ _ _ _)).
Qed.
Lemma known_ren b l : known_tokens (ren_vocab f v) b l = ren_vocab f (known_tokens v b l).
Proof. induction l as [|t r IH]; [reflexivity|]. cbn [known_tokens]. unfold token_to_id. rewrite sfind_ren. destruct (sfind _ _); cbn [option_map]; [|exact IH]. destruct (Bool.eqb _ _); [|exact IH]. rewrite IH. reflexivity. Qed.
Lemma add_ren alias a l : av_add_tokens alias (mav f a) (Some (ren_vocab f v)) l = rmap (fun p => (mav f (fst p), snd p)) (av_add_tokens alias a (Some v) l).
Proof.
  unfold av_add_tokens. cbv zeta.
  assert (K : forall a, fold_left register_special l (mav f a) = mav f (fold_left register_special l a)).
  { induction l as [|t r IH]; intros x; [reflexivity|]. cbn [fold_left]. rewrite <- IH. f_equal. unfold register_special. cbn [mav av_special_set]. destruct (_ && _ && _); reflexivity. }
  rewrite K, assign_ren, bind_rmap, rmap_bind. apply bind_ext. intros a2. unfold refresh_added_tokens. cbn [mav av_specials av_added av_special_set av_map av_map_r bind rmap fst snd]. cbv zeta. rewrite !known_ren. reflexivity.
Qed.

(** *** WordPiece *)
Lemma longest_ren w u start : forall k, wp_longest (ren_wordpiece f w) u start k = option_map (fun p => (f (fst p), snd p)) (wp_longest w u start k).
Proof.
  induction k as [|k IH]; [reflexivity|]. cbn [wp_longest]. change (wp_candidate (ren_wordpiece f w) u start (S k)) with (wp_candidate w u start (S k)). cbn [ren_wordpiece wp_vocab]. rewrite sfind_ren.
  destruct (sfind (wp_candidate w u start (S k)) (wp_vocab w)); [reflexivity | exact IH].
Qed.
Lemma loop_ren w u : forall fuel start, wp_loop fuel (ren_wordpiece f w) u start = rmap (option_map (map (mtok f))) (wp_loop fuel w u start).
Proof.
  induction fuel as [|n IH]; intros start; [reflexivity|]. cbn [wp_loop]. destruct (start <? length u); [|reflexivity]. rewrite longest_ren. destruct (wp_longest w u start (length u - start)) as [[i k]|]; cbn [option_map fst snd]; [|reflexivity].
  rewrite IH, bind_rmap, rmap_bind. apply bind_ext. intros [ts|]; reflexivity.
Qed.
Definition unk_ok (w : wordpiece) : Prop := sfind (wp_unk w) (wp_vocab w) <> None \/ f 0%Z = 0%Z.
Lemma unk_ren w n : unk_ok w -> wp_unk_token (ren_wordpiece f w) n = mtok f (wp_unk_token w n).
Proof. intros Unk. unfold wp_unk_token, mtok. cbn [ren_wordpiece wp_vocab wp_unk tk_id tk_value tk_off]. rewrite sfind_ren. unfold unk_ok in Unk. destruct (sfind (wp_unk w) (wp_vocab w)); [reflexivity|]. cbn. destruct Unk as [K| ->]; congruence. Qed.
Lemma word_ren w s : unk_ok w -> wp_word (ren_wordpiece f w) s = rmap (map (mtok f)) (wp_word w s).
Proof.
  intros Unk. unfold wp_word. cbv zeta. cbn [ren_wordpiece wp_max]. change (mkWp (ren_vocab f (wp_vocab w)) (wp_unk w) (wp_max w) (wp_prefix w)) with (ren_wordpiece f w).
  destruct (_ <? _)%Z; [rewrite unk_ren by exact Unk; reflexivity|]. rewrite loop_ren, bind_rmap, rmap_bind. apply bind_ext. intros [ts|]; cbn [option_map]; [reflexivity | rewrite unk_ren by exact Unk; reflexivity].
Qed.
Lemma tokenize_ren w p : unk_ok w -> wp_tokenize (ren_wordpiece f w) (mpt f p) = rmap (mpt f) (wp_tokenize w p).
Proof.
  intros Unk. unfold wp_tokenize. cbn [mpt pt_splits pt_norm].
  rewrite (mapM_rmap (msplit f) (msplit f) (fun s => ts <- wp_word w (sp_text s) ;; Ok (mkSplit (sp_text s) (sp_off s) ts))).
  - rewrite bind_rmap, rmap_bind. apply bind_ext. reflexivity.
  - intros s. cbn [msplit sp_text sp_off]. rewrite word_ren, bind_rmap, rmap_bind by exact Unk. apply bind_ext. reflexivity.
Qed.

(** *** BPE *)
Lemma mfind_ren a b m : mfind (f a) (f b) (mmerges f m) = option_map (fun p => (fst p, f (snd p))) (mfind a b m).
Proof. induction m as [|[[x y] [r n]] m IH]; [reflexivity|]. cbn. rewrite !(feqb f Finj). destruct (_ && _); [reflexivity | exact IH]. Qed.
Lemma minsert_ren a b r n m : minsert (f a) (f b) (r, f n) (mmerges f m) = mmerges f (minsert a b (r, n) m).
Proof. unfold minsert. rewrite mfind_ren. destruct (mfind a b m); cbn [option_map]; [reflexivity|]. unfold mmerges. rewrite map_app. reflexivity. Qed.
Lemma build_merges_ren vo n : forall l i m, build_merges (ren_vocab f vo) n i l (mmerges f m) = rmap (mmerges f) (build_merges vo n i l m).
Proof.
  induction l as [|r l IH]; intros i m; [reflexivity|]. cbn [build_merges].
  assert (K : match two_fields r with
          | None => Ok (mmerges f m)
          | Some (p1, p2) =>
            match sfind p1 (ren_vocab f vo), sfind p2 (ren_vocab f vo) with
            | Some a, Some b => if length p2 <? n then Throw OutOfRange else match sfind (p1 ++ skipn n p2) (ren_vocab f vo) with Some new => Ok (minsert a b (i, new) (mmerges f m)) | None => Ok (mmerges f m) end
            | _, _ => Ok (mmerges f m)
            end
          end = rmap (mmerges f) (match two_fields r with
          | None => Ok m
          | Some (p1, p2) =>
            match sfind p1 vo, sfind p2 vo with
            | Some a, Some b => if length p2 <? n then Throw OutOfRange else match sfind (p1 ++ skipn n p2) vo with Some new => Ok (minsert a b (i, new) m) | None => Ok m end
            | _, _ => Ok m
            end
          end)).
  { destruct (two_fields r) as [[p1 p2]|]; [|reflexivity]. rewrite !sfind_ren. destruct (sfind p1 vo) as [a|], (sfind p2 vo) as [b|]; cbn [option_map]; try reflexivity.
    destruct (length p2 <? n); [reflexivity|]. destruct (sfind (p1 ++ skipn n p2) vo); cbn [option_map]; [|reflexivity]. rewrite minsert_ren. reflexivity. }
  rewrite K, bind_rmap, rmap_bind. apply bind_ext. intros m'. apply IH.
Qed.
Lemma new_bpe_ren vo ms d u p s fu bf ig : new_bpe (ren_vocab f vo) ms d u p s fu bf ig = rmap (mbpe f) (new_bpe vo ms d u p s fu bf ig).
Proof. unfold new_bpe. change (@nil ((Z * Z) * (Z * Z))) with (mmerges f []) at 1. rewrite build_merges_ren, bind_rmap, rmap_bind. apply bind_ext. reflexivity. Qed.
Lemma word_add_ren w c n : word_add (map (msym f) w) (f c) n = map (msym f) (word_add w c n).
Proof. unfold word_add. rewrite <- map_rev. destruct (rev w) as [|l r]; [reflexivity|]. cbn [map]. rewrite <- map_rev, map_length, map_app. reflexivity. Qed.
Lemma vat_map {A B} (g : A -> B) l i : vat (map g l) i = rmap g (vat l i).
Proof. unfold vat. rewrite nth_error_map. destruct (nth_error l i); reflexivity. Qed.
Lemma vset_map {A B} (g : A -> B) l i x : vset (map g l) i (g x) = rmap (map g) (vset l i x).
Proof. unfold vset. rewrite map_length. destruct (i <? length l); [|reflexivity]. unfold rmap; cbn [bind]. rewrite map_app, firstn_map. cbn [map]. rewrite skipn_map. reflexivity. Qed.
Lemma init_queue_ren m : forall w i, init_queue (mmerges f m) i (map (msym f) w) = map (ren_merge f) (init_queue m i w).
Proof.
  induction w as [|a [|b r] IH]; intros i; try reflexivity. cbn [map init_queue] in *. cbn [msym s_c]. rewrite mfind_ren. destruct (mfind (s_c a) (s_c b) m) as [[rk n]|]; cbn [option_map map fst snd]; [f_equal|]; apply IH.
Qed.
Lemma merge_step_ren m w top : merge_step (mmerges f m) (map (msym f) w) (ren_merge f top) = rmap (fun p => (map (msym f) (fst p), map (ren_merge f) (snd p))) (merge_step m w top).
Proof.
  unfold merge_step. cbn [ren_merge mg_pos mg_new]. rewrite vat_map, bind_rmap, rmap_bind. apply bind_ext. intros cur. cbn [msym s_len s_next s_c]. destruct (s_len cur =? 0); [reflexivity|]. destruct (s_next cur) as [np|]; [|reflexivity].
  rewrite nth_error_map. destruct (nth_error w np) as [rt|]; cbn [option_map]; [|reflexivity]. cbn [msym s_c]. rewrite mfind_ren. destruct (mfind (s_c cur) (s_c rt) m) as [[rk n]|]; cbn [option_map fst snd]; [|reflexivity]. rewrite (feqb f Finj). destruct (negb (n =? mg_new top)%Z); [reflexivity|].
  cbv zeta. cbn [msym s_c s_prev s_next s_len].
  rewrite rmap_bind. pose proof (vset_map (msym f) w (mg_pos top) (mkSym (mg_new top) (s_prev cur) (s_next rt) (s_len cur + s_len rt))) as V1. unfold msym at 2 in V1. cbn [s_c s_prev s_next s_len] in V1. rewrite V1, bind_rmap. clear V1. apply bind_ext. intros w1.
  rewrite rmap_bind. pose proof (vset_map (msym f) w1 np (mkSym (s_c rt) (s_prev rt) (s_next rt) 0)) as V1. unfold msym at 2 in V1. cbn [s_c s_prev s_next s_len] in V1. rewrite V1, bind_rmap. clear V1. apply bind_ext. intros w2.
  assert (K : match s_next rt with Some nn => match nth_error (map (msym f) w2) nn with Some x => vset (map (msym f) w2) nn (mkSym (s_c x) (Some (mg_pos top)) (s_next x) (s_len x)) | None => Ok (map (msym f) w2) end | None => Ok (map (msym f) w2) end
    = rmap (map (msym f)) match s_next rt with Some nn => match nth_error w2 nn with Some x => vset w2 nn (mkSym (s_c x) (Some (mg_pos top)) (s_next x) (s_len x)) | None => Ok w2 end | None => Ok w2 end).
  { destruct (s_next rt) as [nn|]; [|reflexivity]. rewrite nth_error_map. destruct (nth_error w2 nn) as [x|]; cbn [option_map]; [|reflexivity]. apply (vset_map (msym f) w2 nn (mkSym (s_c x) (Some (mg_pos top)) (s_next x) (s_len x))). }
  rewrite K, bind_rmap, rmap_bind. apply bind_ext. intros w3. unfold rmap. cbn [bind fst snd]. do 2 f_equal. rewrite map_app. f_equal.
  - destruct (s_prev cur) as [pv|]; [|reflexivity]. rewrite nth_error_map. destruct (nth_error w3 pv) as [ps|]; cbn [option_map]; [|reflexivity]. cbn [msym s_c]. rewrite mfind_ren. destruct (mfind (s_c ps) (mg_new top) m) as [[? ?]|]; reflexivity.
  - destruct (s_next rt) as [nx|]; [|reflexivity]. rewrite nth_error_map. destruct (nth_error w3 nx) as [ns|]; cbn [option_map]; [|reflexivity]. cbn [msym s_c]. rewrite mfind_ren. destruct (mfind (mg_new top) (s_c ns) m) as [[? ?]|]; reflexivity.
Qed.
Lemma merge_loop_ren E m d : blind E -> forall fuel k w q skip, merge_loop E fuel (mmerges f m) d k (map (msym f) w) (map (ren_merge f) q) (map (ren_merge f) skip) = rmap (map (msym f)) (merge_loop E fuel m d k w q skip).
Proof.
  intros Bl. induction fuel as [|n IH]; intros k w q skip; cbn [merge_loop]; rewrite Bl; destruct (e_pq E q) as [[top q']|]; cbn [option_map fst snd]; try reflexivity.
  destruct (dropped E d k).
  - rewrite <- IH, map_app. reflexivity.
  - rewrite merge_step_ren, bind_rmap, rmap_bind. apply bind_ext. intros [w' new]. cbn [fst snd]. rewrite <- IH, !map_app. reflexivity.
Qed.
Lemma filter_ren w : filter (fun s => negb (s_len s =? 0)) (map (msym f) w) = map (msym f) (filter (fun s => negb (s_len s =? 0)) w).
Proof. induction w as [|s r IH]; [reflexivity|]. cbn [map filter]. cbn [msym s_len]. destruct (s_len s =? 0); cbn [negb map]; rewrite IH; reflexivity. Qed.
Lemma merge_all_ren E m d w : blind E -> merge_all E (mmerges f m) d (map (msym f) w) = rmap (map (msym f)) (merge_all E m d w).
Proof.
  intros Bl. unfold merge_all. destruct w as [|a r]; [reflexivity|]. set (w := a :: r). change (match map (msym f) w with [] => Undef OobIndex | _ :: _ => w' <- merge_loop E (merge_fuel (length (map (msym f) w))) (mmerges f m) d 0 (map (msym f) w) (init_queue (mmerges f m) 0 (map (msym f) w)) [] ;; Ok (filter (fun s => negb (s_len s =? 0)) w') end)
    with (w' <- merge_loop E (merge_fuel (length (map (msym f) w))) (mmerges f m) d 0 (map (msym f) w) (init_queue (mmerges f m) 0 (map (msym f) w)) [] ;; Ok (filter (fun s => negb (s_len s =? 0)) w')).
  rewrite map_length, init_queue_ren. change (@nil merge) with (map (ren_merge f) []) at 1. rewrite merge_loop_ren, bind_rmap, rmap_bind by exact Bl. apply bind_ext. intros w'. rewrite filter_ren. reflexivity.
Qed.
Definition munk (o : option (Z * nat)) : option (Z * nat) := option_map (fun p => (f (fst p), snd p)) o.
Lemma bpe_symbols_ren b : forall l first w unk, bpe_symbols (mbpe f b) first l (map (msym f) w) (munk unk) = (map (msym f) (fst (bpe_symbols b first l w unk)), munk (snd (bpe_symbols b first l w unk))).
Proof.
  induction l as [|x r IH]; intros first w unk; [reflexivity|]. cbn [bpe_symbols]. cbv zeta. change (bpe_piece (mbpe f b) x first (is_nil r)) with (bpe_piece b x first (is_nil r)).
  cbn [mbpe b_vocab b_byte_fallback b_unk b_fuse_unk]. fold (mbpe f b). rewrite !sfind_ren. destruct (sfind (bpe_piece b x first (is_nil r)) (b_vocab b)) as [i|]; cbn [option_map].
  - rewrite <- (IH false (word_add (match unk with Some (u, n) => word_add w u n | None => w end) i 1) None). f_equal. rewrite <- word_add_ren. f_equal. destruct unk as [[u n]|]; [|reflexivity]. cbn. apply word_add_ren.
  - assert (K : (if b_byte_fallback b then flat_map (fun y => match sfind (fallback_key y) (ren_vocab f (b_vocab b)) with Some i => [i] | None => [] end) (bpe_piece b x first (is_nil r)) else [])
       = map f (if b_byte_fallback b then flat_map (fun y => match sfind (fallback_key y) (b_vocab b) with Some i => [i] | None => [] end) (bpe_piece b x first (is_nil r)) else [])).
    { destruct (b_byte_fallback b); [|reflexivity]. induction (bpe_piece b x first (is_nil r)) as [|y ys IHy]; [reflexivity|]. cbn [flat_map]. rewrite map_app, <- IHy, sfind_ren. destruct (sfind (fallback_key y) (b_vocab b)); reflexivity. }
    rewrite K. set (found := if b_byte_fallback b then _ else []). clearbody found. clear K. destruct found as [|i0 is]; cbn [map].
    + destruct (is_nil (b_unk b)); [apply IH|]. destruct unk as [[u n]|]; cbn [munk option_map fst snd].
      * destruct (b_fuse_unk b); [exact (IH false w (Some (u, n + 1)))|]. rewrite word_add_ren. destruct (sfind (b_unk b) (b_vocab b)) as [i|]; cbn [option_map]; [exact (IH false _ (Some (i, 1))) | exact (IH false _ (Some (u, n)))].
      * destruct (sfind (b_unk b) (b_vocab b)) as [i|]; cbn [option_map]; [exact (IH false _ (Some (i, 1))) | exact (IH false _ None)].
    + rewrite <- IH. f_equal. assert (G : forall l w, fold_left (fun w i => word_add w i 1) (map f l) (map (msym f) w) = map (msym f) (fold_left (fun w i => word_add w i 1) l w)).
      { induction l as [|y ys IHy]; intros z; [reflexivity|]. cbn [map fold_left]. rewrite word_add_ren. apply IHy. }
      exact (G (i0 :: is) w).
Qed.
Lemma merge_word_ren E b s : blind E -> merge_word E (mbpe f b) s = rmap (map (msym f)) (merge_word E b s).
Proof.
  intros Bl. unfold merge_word, initial_symbols. assert (K := bpe_symbols_ren b s true [] None). cbn [map munk option_map] in K. rewrite K. destruct (bpe_symbols b true s [] None) as [w unk]. cbn [fst snd mbpe b_merges b_dropout].
  assert (U : match munk unk with Some (u, n) => word_add (map (msym f) w) u n | None => map (msym f) w end = map (msym f) (match unk with Some (u, n) => word_add w u n | None => w end)) by (destruct unk as [[u n]|]; [apply word_add_ren | reflexivity]).
  rewrite U. apply merge_all_ren. exact Bl.
Qed.
Lemma word_to_tokens_ren vo : forall w pos, word_to_tokens (ren_vocab f vo) pos (map (msym f) w) = rmap (map (mtok f)) (word_to_tokens vo pos w).
Proof.
  induction w as [|s r IH]; intros pos; [reflexivity|]. cbn [map word_to_tokens]. cbn [msym s_c s_len]. rewrite (id_to_token_ren f Finj). destruct (model_id_to_token vo (s_c s)); [|reflexivity]. rewrite IH, bind_rmap, rmap_bind. apply bind_ext. reflexivity.
Qed.
Definition mpair {A B C} (g : A -> B) (p : C * res A) : C * res B := (fst p, rmap g (snd p)).
Lemma cache_find s c : sfind s (mcache f c) = option_map (map (msym f)) (sfind s c).
Proof. induction c as [|[k x] r IH]; [reflexivity|]. cbn. destruct (leqb s k); [reflexivity | exact IH]. Qed.
Lemma cache_insert s w c : sinsert s (map (msym f) w) (mcache f c) = mcache f (sinsert s w c).
Proof. unfold sinsert. rewrite cache_find. destruct (sfind s c); cbn [option_map]; [reflexivity|]. unfold mcache. rewrite map_app. reflexivity. Qed.
Lemma with_cache_ren E b c s : blind E -> tokenize_with_cache E (mbpe f b) (mcache f c) s = (mcache f (fst (tokenize_with_cache E b c s)), rmap (map (mtok f)) (snd (tokenize_with_cache E b c s))).
Proof.
  intros Bl. unfold tokenize_with_cache. cbv zeta. rewrite merge_word_ren by exact Bl. cbn [mbpe b_vocab b_ignore_merges].
  assert (D : (if b_ignore_merges b then sfind s (ren_vocab f (b_vocab b)) else None) = option_map f (if b_ignore_merges b then sfind s (b_vocab b) else None)) by (destruct (b_ignore_merges b); [apply sfind_ren | reflexivity]).
  rewrite D. destruct (if b_ignore_merges b then sfind s (b_vocab b) else None) as [i|]; cbn [option_map]; [reflexivity|]. rewrite cache_find. destruct (sfind s c) as [w|]; cbn [option_map]; [rewrite word_to_tokens_ren; reflexivity|].
  destruct (merge_word E b s) as [w| | |]; cbn [rmap bind]; try reflexivity. rewrite word_to_tokens_ren. destruct (word_to_tokens (b_vocab b) 0 w); cbn [rmap bind fst snd]; try reflexivity. rewrite cache_insert. reflexivity.
Qed.
Lemma bpe_word_ren E b c s : blind E -> bpe_word E (mbpe f b) (mcache f c) s = (mcache f (fst (bpe_word E b c s)), rmap (map (mtok f)) (snd (bpe_word E b c s))).
Proof.
  intros Bl. unfold bpe_word. cbn [mbpe b_dropout]. fold (mbpe f b). destruct (QArith_base.Qeq_bool _ _); [apply with_cache_ren; exact Bl|]. cbn [fst snd]. f_equal. rewrite merge_word_ren, bind_rmap, rmap_bind by exact Bl. apply bind_ext. intros w. apply word_to_tokens_ren.
Qed.
Lemma bpe_splits_ren E b : blind E -> forall l c, bpe_splits E (mbpe f b) (mcache f c) (map (msplit f) l) = (mcache f (fst (bpe_splits E b c l)), rmap (map (msplit f)) (snd (bpe_splits E b c l))).
Proof.
  intros Bl. induction l as [|s r IH]; intros c; [reflexivity|]. cbn [map bpe_splits]. cbn [msplit sp_text sp_off]. rewrite bpe_word_ren by exact Bl. destruct (bpe_word E b c (sp_text s)) as [c' [ts| | |]]; cbn [fst snd rmap bind]; try reflexivity.
  rewrite IH. destruct (bpe_splits E b c' r) as [c'' rest]. cbn [fst snd]. f_equal. rewrite bind_rmap, rmap_bind. apply bind_ext. reflexivity.
Qed.
Lemma bpe_tokenize_ren E b c p : blind E -> bpe_tokenize E (mbpe f b) (mcache f c) (mpt f p) = (mcache f (fst (bpe_tokenize E b c p)), rmap (mpt f) (snd (bpe_tokenize E b c p))).
Proof.
  intros Bl. unfold bpe_tokenize. cbn [mpt pt_splits pt_norm]. rewrite bpe_splits_ren by exact Bl. destruct (bpe_splits E b c (pt_splits p)) as [c' r]. cbn [fst snd]. f_equal. rewrite bind_rmap, rmap_bind. apply bind_ext. reflexivity.
Qed.

(** *** Any model *)
Definition follows (E : env) (m : model) : Prop := match m with MWordPiece w => unk_ok w | MBpe _ _ => blind E end.
Lemma model_vocab_ren m : model_vocab (mmodel f m) = ren_vocab f (model_vocab m).
Proof. destruct m; reflexivity. Qed.
Lemma model_tokenize_ren E m p : follows E m -> model_tokenize E (mmodel f m) (mpt f p) = (mmodel f (fst (model_tokenize E m p)), rmap (mpt f) (snd (model_tokenize E m p))).
Proof.
  destruct m as [w|b c]; intros H; cbn [mmodel model_tokenize fst snd]; [rewrite tokenize_ren by exact H; reflexivity|]. rewrite bpe_tokenize_ren by exact H. destruct (bpe_tokenize E b c p); reflexivity.
Qed.
Lemma model_kept E m p : model_vocab (fst (model_tokenize E m p)) = model_vocab m /\ (follows E m -> follows E (fst (model_tokenize E m p))).
Proof. destruct m as [w|b c]; cbn [model_tokenize]; [split; [reflexivity | exact (fun H => H)]|]. destruct (bpe_tokenize E b c p). split; [reflexivity | exact (fun H => H)]. Qed.
Lemma rows_ren ns ty : forall l idx, into_rows ns ty idx (map (msplit f) l) = rmap (menc f) (into_rows ns ty idx l).
Proof.
  induction l as [|s r IH]; intros idx; [reflexivity|]. cbn [map into_rows]. change (split_base ns (msplit f s)) with (split_base ns s). rewrite rmap_bind. apply bind_ext. intros base. rewrite IH, bind_rmap, rmap_bind. apply bind_ext. intros rest.
  cbn [rmap bind]. f_equal. rewrite <- append_ren. f_equal. unfold split_rows, msplit. cbn. rewrite !map_map. reflexivity.
Qed.

(** *** The calls *)
Definition on_model (E : env) (t : tokenizer) : Prop := match tz_model t with Some m => model_vocab m = v /\ follows E m | None => True end.
Lemma prepare_ren E t s : prepare E (mtz f t) s = rmap (fun r => (option_map (mav f) (fst r), mpt f (snd r))) (prepare E t s).
Proof.
  unfold prepare. rewrite <- (new_pretok_ren (new_nstring s)) at 1. rewrite bind_rmap, rmap_bind. apply bind_ext. intros p0. cbn [mtz tz_av tz_norm tz_pre].
  assert (K : (match option_map (mav f) (tz_av t) with None => Ok (None, mpt f p0) | Some a => '(m, p) <- extract_and_normalize E a (tz_norm t) s ;; Ok (Some (set_map_r a m), p) end)
    = rmap (fun r => (option_map (mav f) (fst r), mpt f (snd r))) (match tz_av t with None => Ok (None, p0) | Some a => '(m, p) <- extract_and_normalize E a (tz_norm t) s ;; Ok (Some (set_map_r a m), p) end)).
  { destruct (tz_av t) as [a|]; [|reflexivity]. cbn [option_map]. rewrite extract_ren, bind_rmap, rmap_bind. apply bind_ext. intros [m p]. reflexivity. }
  rewrite K, bind_rmap, rmap_bind. apply bind_ext. intros [av p1]. cbn [fst snd].
  assert (L : (match tz_pre t with Some pt => pre_tokenize E pt (mpt f p1) | None => Ok (mpt f p1) end) = rmap (mpt f) (match tz_pre t with Some pt => pre_tokenize E pt p1 | None => Ok p1 end)) by (destruct (tz_pre t); [apply pre_tokenize_ren | reflexivity]).
  rewrite L, bind_rmap, rmap_bind. apply bind_ext. reflexivity.
Qed.
Lemma prepare_av_ren E t s : prepare_av E (mtz f t) s = option_map (mav f) (prepare_av E t s).
Proof. unfold prepare_av. cbn [mtz tz_av tz_norm]. destruct (tz_av t) as [a|]; [|reflexivity]. cbn [option_map]. rewrite extract_map_ren. reflexivity. Qed.
Lemma encode_ren E fuel t s add : on_model E t -> encode E fuel (mtz f t) s add = (mtz f (fst (encode E fuel t s add)), rmap (menc f) (snd (encode E fuel t s add))) /\ on_model E (fst (encode E fuel t s add)).
Proof.
  intros M. unfold encode. rewrite prepare_ren, prepare_av_ren. destruct (prepare E t s) as [[av p]| | |]; cbn [rmap bind fst snd]; [|split; [reflexivity | exact M]..].
  cbv zeta. cbn [set_av mtz tz_model]. unfold on_model in M.
  assert (Fin : forall t2 r, tz_trunc t2 = tz_trunc t -> (p' <- rmap (mpt f) r ;; e <- into_encoding p' 0 ;; do_post_process fuel (mtz f t2) e add) = rmap (menc f) (p' <- r ;; e <- into_encoding p' 0 ;; do_post_process fuel t2 e add)).
  { intros t2 r _. rewrite bind_rmap, rmap_bind. apply bind_ext. intros p'. unfold into_encoding. cbn [mpt pt_norm pt_splits]. rewrite rows_ren, bind_rmap, rmap_bind. apply bind_ext. intros e. apply do_post_ren. }
  destruct (tz_model t) as [m|] eqn:TM; cbn [option_map].
  - destruct M as [M1 M2]. rewrite model_tokenize_ren by exact M2. destruct (model_kept E m p) as [K1 K2]. destruct (model_tokenize E m p) as [m' r]. cbn [fst snd] in *. split.
    + apply (f_equal2 pair); [reflexivity|]. exact (Fin (set_model (set_av t av) (Some m')) r eq_refl).
    + split; [congruence | auto].
  - cbn [fst snd]. split.
    + apply (f_equal2 pair); [unfold mtz, set_av; cbn; rewrite TM; reflexivity|].
      assert (T : mkTz (tz_trunc t) (option_map (ren_pad f) (tz_pad t)) (option_map (mav f) av) (tz_norm t) (tz_pre t) None (tz_dec t) (option_map (ren_post f) (tz_post t)) = mtz f (set_av t av)) by (unfold mtz, set_av; cbn; rewrite TM; reflexivity).
      assert (R : (p' <- Ok (mpt f p) ;; e <- into_encoding p' 0 ;; do_post_process fuel (mtz f (set_av t av)) e add) = rmap (menc f) (p' <- Ok p ;; e <- into_encoding p' 0 ;; do_post_process fuel (set_av t av) e add)) by exact (Fin (set_av t av) (Ok p) eq_refl).
      rewrite <- R. unfold set_av at 1. cbn [mtz tz_trunc tz_pad tz_norm tz_pre tz_dec tz_post]. rewrite <- T. reflexivity.
    + unfold on_model, set_av. cbn. rewrite TM. exact I.
Qed.
Lemma decode_ren t ids skip : decode (mtz f t) (map f ids) skip = decode t ids skip.
Proof.
  unfold decode. cbn [mtz tz_dec].
  assert (K : decode_ids (mtz f t) skip (map f ids) = decode_ids t skip ids).
  { induction ids as [|i r IH]; [reflexivity|]. cbn [map decode_ids]. rewrite IH. cbn [mtz tz_av tz_model]. destruct (tz_av t) as [a|]; [|reflexivity]. cbn [option_map].
    assert (A : av_id_to_token (mav f a) (f i) = av_id_to_token a i) by (unfold av_id_to_token; cbn [mav av_map_r]; rewrite zfind_mmap; reflexivity).
    rewrite A. destruct (tz_model t) as [m|]; cbn [option_map]; [|reflexivity]. rewrite model_vocab_ren, (id_to_token_ren f Finj). reflexivity. }
  fold (mtz f t). rewrite K. reflexivity.
Qed.
Lemma no_vocab alias a l : av_add_tokens alias (mav f a) None l = rmap (fun p => (mav f (fst p), snd p)) (av_add_tokens alias a None l).
Proof.
  unfold av_add_tokens. cbv zeta.
  assert (K : forall a, fold_left register_special l (mav f a) = mav f (fold_left register_special l a)).
  { induction l as [|t r IH]; intros x; [reflexivity|]. cbn [fold_left]. rewrite <- IH. f_equal. unfold register_special. cbn [mav av_special_set]. destruct (_ && _ && _); reflexivity. }
  rewrite K. set (a1 := fold_left register_special l a). clearbody a1. clear K.
  assert (G : forall l a, assign_ids alias (mav f a) None l = rmap (mav f) (assign_ids alias a None l)).
  { clear - Finj. induction l as [|t r IH]; intros a; cbn [assign_ids]; [reflexivity|]. destruct (is_nil (at_content t)); [apply IH|].
    assert (C : choose_id (mav f a) None (at_content t) = rmap f (choose_id a None (at_content t))) by (unfold choose_id; cbn [mav av_map]; rewrite sfind_ren; destruct (sfind (at_content t) (av_map a)); reflexivity).
    rewrite C, bind_rmap, rmap_bind. apply bind_ext. intros i. cbv zeta.
    cbn [mav av_added av_specials av_special_set av_map av_map_r av_trie_norm av_trie_raw]. unfold mmap_r at 1. unfold mmap_r at 1. rewrite !sset_ren, !(zset_keys f Finj).
    destruct (smem _ _); [exact (IH (mkAv _ _ _ _ _ _ _))|]. destruct alias; [reflexivity|]. exact (IH (mkAv _ _ _ _ _ _ _)). }
  rewrite G, bind_rmap, rmap_bind. apply bind_ext. intros a2. unfold refresh_added_tokens. cbn [mav av_specials av_added av_special_set av_map av_map_r]. cbv zeta. destruct (av_specials a2 ++ av_added a2); reflexivity.
Qed.
Lemma add_tokens_ren E alias t l : on_model E t -> add_tokens alias (mtz f t) l = rmap (fun r => (mtz f (fst r), snd r)) (add_tokens alias t l) /\ (forall t' n, add_tokens alias t l = Ok (t', n) -> on_model E t').
Proof.
  intros M. unfold add_tokens. cbn [mtz tz_av tz_model]. destruct (tz_av t) as [a|]; [|split; [reflexivity | discriminate]]. cbn [option_map].
  assert (V : option_map model_vocab (option_map (mmodel f) (tz_model t)) = option_map (ren_vocab f) (option_map model_vocab (tz_model t))) by (destruct (tz_model t) as [m|]; [cbn; rewrite model_vocab_ren; reflexivity | reflexivity]).
  rewrite V. split.
  - assert (A : av_add_tokens alias (mav f a) (option_map (ren_vocab f) (option_map model_vocab (tz_model t))) l = rmap (fun p => (mav f (fst p), snd p)) (av_add_tokens alias a (option_map model_vocab (tz_model t)) l)).
    { unfold on_model in M. destruct (tz_model t) as [m|]; cbn [option_map]; [rewrite (proj1 M); apply add_ren | apply no_vocab]. }
    rewrite A, bind_rmap, rmap_bind. apply bind_ext. intros [a' n]. reflexivity.
  - intros t' n H. destruct (av_add_tokens alias a (option_map model_vocab (tz_model t)) l) as [[a' n']| | |]; cbn in H; try discriminate. injection H as <- <-. exact M.
Qed.
Definition manswer (a : answer) : answer := match a with AnsEncoding r => AnsEncoding (rmap (menc f) r) | a => a end.
Lemma call_ren E fuel t k : on_model E t -> do_call E fuel (mtz f t) (ren_call f k) = (mtz f (fst (do_call E fuel t k)), manswer (snd (do_call E fuel t k))) /\ on_model E (fst (do_call E fuel t k)).
Proof.
  intros M. assert (A : forall l, adding (mtz f t) (add_tokens false (mtz f t) l) = (mtz f (fst (adding t (add_tokens false t l))), manswer (snd (adding t (add_tokens false t l)))) /\ on_model E (fst (adding t (add_tokens false t l)))).
  { intros l. destruct (add_tokens_ren E false t l M) as [K1 K2]. rewrite K1. destruct (add_tokens false t l) as [[t' n]| | |] eqn:R; cbn; (split; [reflexivity|]); try exact M. eapply K2; reflexivity. }
  destruct k as [s add|ids skip|l|l]; cbn [ren_call do_call].
  - destruct (encode_ren E fuel t s add M) as [K1 K2]. rewrite K1. destruct (encode E fuel t s add) as [t' r]. split; [reflexivity | exact K2].
  - rewrite decode_ren. split; [reflexivity | exact M].
  - apply A.
  - apply A.
Qed.
Lemma after_ren E fuel h : forall t, on_model E t -> HistSpec.after E fuel (mtz f t) (map (ren_call f) h) = mtz f (HistSpec.after E fuel t h) /\ on_model E (HistSpec.after E fuel t h).
Proof.
  unfold HistSpec.after. induction h as [|k h IH]; intros t M; [split; [reflexivity | exact M]|]. cbn [map fold_left]. destruct (call_ren E fuel t k M) as [K1 K2]. rewrite K1. apply IH. exact K2.
Qed.
End Tokens.

Lemma menc_related f : forall e, ren_encoding f e (menc f e).
Proof.
  fix IH 1. intros [i t k w o s m ov]. constructor; try reflexivity. cbn. induction ov as [|x r IHr]; constructor; [apply IH | exact IHr].
Qed.
Lemma answer_related f a : ren_answer f a (manswer f a).
Proof. destruct a as [r|r|r]; destruct r; cbn; auto. apply menc_related. Qed.

(** Two tokenizers made from configurations that differ by an exchange of the ids of their vocabulary: after any history of calls, any call gets the same answer from both up to the exchange. *)
Theorem C143_renumbered : forall f load parse path cfg text c m load' parse' path' cfg' text' t E fuel fuel',
  source load path cfg (Some text) -> parse text = Some (render c) -> config_ok c -> source load' path' cfg' (Some text') -> parse' text' = Some (render (ren_config f c)) -> config_ok (ren_config f c) ->
  cf_model c = Some m -> exchange f (Z.of_nat (length (vocab_of m))) -> can_follow E f m ->
  construct load parse path cfg = Ok t ->
  exists t', construct load' parse' path' cfg' = Ok t' /\
  forall h k, ren_answer f (reply E fuel' (HistSpec.after E fuel t h) k) (reply E fuel' (HistSpec.after E fuel t' (map (ren_call f) h)) (ren_call f k)).
Proof.
  intros f load parse path cfg text c m load' parse' path' cfg' text' t E fuel fuel' Hs Hp Hok Hs' Hp' Hok' Hm Fex Can Hc.
  assert (Hb : exists t0, build c = Ok t0 /\ build (ren_config f c) = Ok (mtz f t0) /\ on_model f (vocab_of m) E t0).
  { rewrite (construct_eq _ _ _ _ _ Hs), Hp in Hc. destruct (render_describes c) as (o & Ho & Hd). rewrite Ho, (C79_round_trip _ _ Hd Hok) in Hc.
    destruct (build c) as [t0| | |] eqn:B; cbn in Hc; try discriminate. exists t0. split; [reflexivity|]. unfold build in *. cbn [ren_config cf_model cf_trunc cf_pad cf_added cf_norm cf_pre cf_dec cf_post].
    assert (Av : option_map new_added_vocab (cf_added c) = option_map (mav f) (option_map new_added_vocab (cf_added c))) by (destruct (cf_added c); reflexivity).
    rewrite Hm in *. destruct m as [w|v ms d u p s fu bf ig]; cbn [option_map ren_model build_model bind vocab_of can_follow] in *.
    - injection B as <-. split; [unfold mtz; cbn [tz_trunc tz_pad tz_av tz_norm tz_pre tz_model tz_dec tz_post]; rewrite <- Av; reflexivity|]. split; [reflexivity | exact Can].
    - rewrite (new_bpe_ren f v) by exact Fex. destruct (new_bpe v ms d u p s fu bf ig) as [b| | |] eqn:NB; cbn in B; try discriminate. injection B as <-. cbn [rmap bind].
      split; [unfold mtz; cbn [tz_trunc tz_pad tz_av tz_norm tz_pre tz_model tz_dec tz_post]; rewrite <- Av; reflexivity|]. split; [|exact Can].
      cbn. unfold new_bpe in NB. destruct (build_merges _ _ _ _ _); cbn in NB; try discriminate. injection NB as <-. reflexivity. }
  destruct Hb as (t0 & B & B' & M0).
  rewrite (C79_construct _ _ _ _ _ _ _ Hs Hp Hok B) in Hc. rewrite (C79_construct _ _ _ _ _ _ _ Hs' Hp' Hok' B').
  assert (G : forall v, exchange f (vocab_size v) -> on_model f v E t0 -> exists t', finish_construction (mtz f t0) = Ok t' /\ forall h k, ren_answer f (reply E fuel' (HistSpec.after E fuel t h) k) (reply E fuel' (HistSpec.after E fuel t' (map (ren_call f) h)) (ren_call f k))).
  { intros v Fx M. assert (F : finish_construction (mtz f t0) = Ok (mtz f t) /\ on_model f v E t).
    { unfold finish_construction in *. change (tz_av (mtz f t0)) with (option_map (mav f) (tz_av t0)). destruct (tz_av t0) as [a|] eqn:A; cbn [option_map]; [|injection Hc as <-; split; [reflexivity | exact M]].
      change (av_added (mav f a)) with (av_added a). destruct (add_tokens_ren f v Fx E true t0 (av_added a) M) as [K1 K2]. rewrite K1. destruct (add_tokens true t0 (av_added a)) as [[t' n]| | |] eqn:R; cbn in Hc; try discriminate.
      injection Hc as <-. split; [reflexivity | eapply K2; reflexivity]. }
    exists (mtz f t). split; [apply F|]. intros h k. destruct (after_ren f v Fx E fuel h t (proj2 F)) as [K1 K2]. rewrite K1. unfold reply. rewrite (proj1 (call_ren f v Fx E fuel' _ k K2)). cbn [snd]. apply answer_related. }
  apply (G (vocab_of m)); [exact Fex | exact M0].
Qed.
Print Assumptions C143_renumbered.

(** ** Cases *)
From Verif Require Import PropsBertConfig.
Definition base_model : wordpiece := mkWp base_vocab (str "[UNK]") 100 (str "##").
(** 0 and 4, 2 and 8, 5 and 6 change places *)
Definition shuffle (i : Z) : Z := nth (Z.to_nat i) [4; 1; 8; 3; 0; 6; 5; 7; 2]%Z i.
Definition shuffled (i : Z) : Z := if ((0 <=? i) && (i <? 9))%Z then shuffle i else i.
Example C143_case : cf_model base_config = Some (CWordPiece base_model) /\ config_ok (ren_config shuffled base_config) /\ exchange shuffled (Z.of_nat (length base_vocab)) /\ sfind (str "[UNK]") base_vocab <> None /\
  exists t t', construct (fun _ => None) (fun _ => Some (render base_config)) [] (str "{}") = Ok t /\ construct (fun _ => None) (fun _ => Some (render (ren_config shuffled base_config))) [] (str "{}") = Ok t' /\
  exists r r', reply test_env 20 (HistSpec.after test_env 10 t base_history) (CallEncode (str "Playing qux [MASK] chess") true) = AnsEncoding (Ok r) /\ reply test_env 20 (HistSpec.after test_env 10 t' (map (ren_call shuffled) base_history)) (CallEncode (str "Playing qux [MASK] chess") true) = AnsEncoding (Ok r') /\
    en_tokens r = map str ["[CLS]"; "play"; "##ing"; "[UNK]"; "[MASK]"; "chess"; "[SEP]"; "[PAD]"] /\ en_tokens r' = en_tokens r /\ en_ids r = [2; 5; 6; 1; 4; 7; 3; 0]%Z /\ en_ids r' = [8; 6; 5; 1; 0; 7; 3; 4]%Z.
Proof.
  split; [reflexivity|]. split; [|split; [|split; [discriminate|]]].
  - unfold ren_config, base_model, ren_model, ren_wordpiece, config_ok, base_config, base_vocab, base_tokens, opt_ok, trunc_ok, pad_ok, model_ok, vocab_ok, dec_ok, post_ok, ConfigSpec.int32, plain.
    cbn [cf_trunc cf_pad cf_added cf_model cf_dec cf_post t_max t_stride option_map ren_model ren_post ren_pad ren_vocab p_id p_type_id p_multiple p_fixed p_strat wp_vocab wp_max wp_unk wp_prefix map fst snd].
    assert (HP : forall s, forallb (fun b => negb (b =? 34) && negb (b =? 92) && (32 <=? b))%N s = true -> Forall (fun b => b <> 34%N /\ b <> 92%N /\ (32 <= b)%N) s).
    { intros s H. apply Forall_forall. intros b Hb. rewrite forallb_forall in H. specialize (H b Hb). lia. }
    repeat match goal with |- _ /\ _ => split | |- True => exact I | |- Forall _ (_ :: _) => apply Forall_cons | |- Forall _ [] => apply Forall_nil end; cbn [fst snd at_id pc_type st_ids base_special ren_special map];
      repeat match goal with |- context [shuffled ?x] => let y := eval vm_compute in (shuffled x) in change (shuffled x) with y end; try lia; try reflexivity; try (apply HP; reflexivity).
    all: repeat (apply NoDup_cons; [cbn; intuition discriminate|]); try apply NoDup_nil; repeat (apply Forall_cons; [vm_compute; split; discriminate|]); try apply Forall_nil.
  - assert (V : forall i, (0 <= i < 9)%Z -> In i [0; 1; 2; 3; 4; 5; 6; 7; 8]%Z) by (intros i Hi; cbn; lia).
    assert (R : forall i, (0 <= i < 9)%Z -> (0 <= shuffled i < 9)%Z) by (intros i Hi; apply V in Hi; cbn in Hi; repeat destruct Hi as [<-|Hi]; try contradiction; vm_compute; split; congruence).
    assert (J : forall i, (0 <= i < 9)%Z -> shuffled (shuffled i) = i) by (intros i Hi; apply V in Hi; cbn in Hi; repeat destruct Hi as [<-|Hi]; try contradiction; reflexivity).
    assert (O : forall i, (i < 0 \/ 9 <= i)%Z -> shuffled i = i) by (intros i Hi; unfold shuffled; assert (Q : ((0 <=? i) && (i <? 9))%Z = false) by lia; rewrite Q; reflexivity).
    split; [|exact O]. intros i j H.
    assert (D : forall k, (0 <= k < 9)%Z \/ (k < 0 \/ 9 <= k)%Z) by (intros k; lia). destruct (D i) as [A|A], (D j) as [B|B].
    + rewrite <- (J i A), <- (J j B), H. reflexivity.
    + specialize (R i A). rewrite H, (O j B) in R. lia.
    + specialize (R j B). rewrite <- H, (O i A) in R. lia.
    + rewrite (O i A), (O j B) in H. exact H.
  - eexists. eexists. split; [vm_compute; reflexivity|]. split; [vm_compute; reflexivity|]. eexists. eexists. split; [vm_compute; reflexivity|]. split; [vm_compute; reflexivity|]. repeat split.
Qed.

(** Without an unknown token in the vocabulary its id is 0 whatever 0 stands for: two ids change places and the answer does not follow. *)
Definition nounk_model : wordpiece := mkWp [(str "a", 0%Z); (str "b", 1%Z)] (str "[UNK]") 100 (str "##").
Definition nounk_config : config := mkConfig None None (Some []) None (Some TBert) (Some (CWordPiece nounk_model)) (Some (DWordPiece (str "##") true)) None.
Definition swap01 (i : Z) : Z := if (i =? 0)%Z then 1%Z else if (i =? 1)%Z then 0%Z else i.
Example C143_unknown_case : exchange swap01 2 /\
  exists t t', construct (fun _ => None) (fun _ => Some (render nounk_config)) [] (str "{}") = Ok t /\ construct (fun _ => None) (fun _ => Some (render (ren_config swap01 nounk_config))) [] (str "{}") = Ok t' /\
  exists r r', reply test_env 5 t (CallEncode (str "c a") true) = AnsEncoding (Ok r) /\ reply test_env 5 t' (CallEncode (str "c a") true) = AnsEncoding (Ok r') /\ en_ids r = [0; 0]%Z /\ en_ids r' = [0; 1]%Z /\
    reply test_env 5 t (CallDecode (en_ids r) false) = AnsText (Ok (str "a a")) /\ reply test_env 5 t' (CallDecode (en_ids r') false) = AnsText (Ok (str "b a")).
Proof.
  split; [split; intros i; unfold swap01; [intros j; destruct (Z.eqb_spec i 0), (Z.eqb_spec i 1), (Z.eqb_spec j 0), (Z.eqb_spec j 1) | destruct (Z.eqb_spec i 0), (Z.eqb_spec i 1)]; lia|]. eexists. eexists. split; [vm_compute; reflexivity|]. split; [vm_compute; reflexivity|]. eexists. eexists. split; [vm_compute; reflexivity|]. split; [vm_compute; reflexivity|]. repeat split.
Qed.

(** The queue of the concrete environment is blind; a BPE configuration with merges, ids 0 and 4 exchanged. *)
Lemma list_pq_blind f : forall q, list_pq (map (ren_merge f) q) = option_map (fun p => (ren_merge f (fst p), map (ren_merge f) (snd p))) (list_pq q).
Proof.
  induction q as [|x r IH]; [reflexivity|]. cbn [map list_pq]. rewrite IH. destruct (list_pq r) as [[t r']|]; cbn [option_map fst snd]; [|reflexivity].
  change (merge_lt (ren_merge f x) (ren_merge f t)) with (merge_lt x t). destruct (merge_lt x t); reflexivity.
Qed.
Definition bpe_vocab : smap Z := [(str "a", 0%Z); (str "b", 1%Z); (str "c", 2%Z); (str "ab", 3%Z); (str "abc", 4%Z); (str "[X]", 5%Z); (str "[", 6%Z); (str "]", 7%Z); (str "X", 8%Z)].
Definition bpe_renum_config : config :=
  mkConfig None None (Some [mkAt 9 (str "[X]") false false false false true]) None (Some TBert)
    (Some (CBpe bpe_vocab [str "a b"; str "ab c"] (QArith_base.Qmake 0 1) [] [] [] false false true)) None None.
Definition swap04 (i : Z) : Z := if (i =? 0)%Z then 4%Z else if (i =? 4)%Z then 0%Z else i.
Example C143_bpe_case : exchange swap04 (Z.of_nat (length (vocab_of (CBpe bpe_vocab [str "a b"; str "ab c"] (QArith_base.Qmake 0 1) [] [] [] false false true)))) /\ blind test_env /\
  config_ok bpe_renum_config /\ config_ok (ren_config swap04 bpe_renum_config) /\
  exists t t', construct (fun _ => None) (fun _ => Some (render bpe_renum_config)) [] (str "{}") = Ok t /\ construct (fun _ => None) (fun _ => Some (render (ren_config swap04 bpe_renum_config))) [] (str "{}") = Ok t' /\
  exists r r', reply test_env 5 t (CallEncode (str "abcab [X] ca") true) = AnsEncoding (Ok r) /\ reply test_env 5 t' (CallEncode (str "abcab [X] ca") true) = AnsEncoding (Ok r') /\
    en_ids r = [4; 3; 5; 2; 0]%Z /\ en_ids r' = [0; 3; 5; 2; 4]%Z.
Proof.
  split; [split; intros i; unfold swap04; [intros j; destruct (Z.eqb_spec i 0), (Z.eqb_spec i 4), (Z.eqb_spec j 0), (Z.eqb_spec j 4) | change (Z.of_nat (length _)) with 9%Z; destruct (Z.eqb_spec i 0), (Z.eqb_spec i 4)]; lia|].
  split; [intros f q; apply list_pq_blind|]. split; [|split].
  1,2: unfold ren_config, ren_model, bpe_renum_config, bpe_vocab, config_ok, opt_ok, model_ok, vocab_ok, ConfigSpec.int32;
    cbn [cf_trunc cf_pad cf_added cf_model cf_dec cf_post option_map ren_vocab map fst snd];
    repeat match goal with |- _ /\ _ => split | |- True => exact I | |- Forall _ (_ :: _) => apply Forall_cons | |- Forall _ [] => apply Forall_nil end; cbn [fst snd at_id];
      repeat match goal with |- context [swap04 ?x] => let y := eval vm_compute in (swap04 x) in change (swap04 x) with y end; try lia; try reflexivity.
  all: try (repeat (apply NoDup_cons; [cbn; intuition discriminate|]); apply NoDup_nil).
  all: try (unfold plain; repeat (apply Forall_cons; [vm_compute; repeat split; discriminate|]); apply Forall_nil).
  eexists. eexists. split; [vm_compute; reflexivity|]. split; [vm_compute; reflexivity|]. eexists. eexists. split; [vm_compute; reflexivity|]. split; [vm_compute; reflexivity|]. repeat split.
Qed.
