(** C138: how much work encode does. *)
From Verif Require Import Base BaseFacts Unicode UnicodeProofs Common Normalizer PreTokenizer WordPiece Bpe BpeSpec BpeProofs BpeWord AddedVocab Tokenizer Spec NormSpec PreSpec AvSpec RefSpec CutSpec PreProofs WpProofs AvProofs OutProofs ExtractProofs BpeRefSpec UnkSpec PropsUnknown CountSpec Env PropsBpe PropsBpeText PropsCut PropsCache PropsCount Cost.
From Coq Require Import Permutation ZifyBool ZifyNat ZifyN.
From Coq Require QArith_base.
Import ListNotations.

(** ** Counting changes no result *)
Lemma wp_longest_same w u start : forall k, fst (wp_longest_n w u start k) = wp_longest w u start k.
Proof.
  induction k as [|k IH]; [reflexivity|]. cbn [wp_longest_n wp_longest]. destruct (sfind _ _); [reflexivity|]. destruct (wp_longest_n w u start k) as [r n]. exact IH.
Qed.
Lemma wp_loop_same w u : forall fuel start, fst (wp_loop_n fuel w u start) = wp_loop fuel w u start.
Proof.
  induction fuel as [|f IH]; intros start; [reflexivity|]. cbn [wp_loop_n wp_loop]. destruct (start <? length u); [|reflexivity].
  pose proof (wp_longest_same w u start (length u - start)) as H. destruct (wp_longest_n w u start (length u - start)) as [[[i k]|] n]; cbn [fst] in H; rewrite <- H; [|reflexivity].
  specialize (IH (start + k)). destruct (wp_loop_n f w u (start + k)) as [r n']. cbn [fst] in *. rewrite IH. reflexivity.
Qed.
Lemma wp_word_same w t : fst (wp_word_n w t) = wp_word w t.
Proof.
  unfold wp_word_n, wp_word. destruct (wp_max w <? Z.of_nat (length (from_utf8 t)))%Z; [reflexivity|].
  pose proof (wp_loop_same w (from_utf8 t) (S (length (from_utf8 t))) 0) as H. destruct (wp_loop_n (S (length (from_utf8 t))) w (from_utf8 t) 0) as [r n]. cbn [fst] in *. rewrite H. reflexivity.
Qed.
Lemma wp_splits_same w : forall l, fst (wp_splits_n w l) = mapM (fun s => ts <- wp_word w (sp_text s) ;; Ok (mkSplit (sp_text s) (sp_off s) ts)) l.
Proof.
  induction l as [|s l IH]; [reflexivity|]. cbn [wp_splits_n mapM]. rewrite <- wp_word_same. destruct (wp_word_n w (sp_text s)) as [[ts| | |] n]; cbn [fst bind]; try reflexivity.
  destruct (wp_splits_n w l) as [rest n']. cbn [fst] in *. rewrite <- IH. reflexivity.
Qed.
Lemma init_queue_same m : forall w i, fst (init_queue_n m i w) = init_queue m i w.
Proof.
  induction w as [|a w IH]; intros i; [reflexivity|]. destruct w as [|b w]; [reflexivity|]. specialize (IH (S i)).
  change (init_queue_n m i (a :: b :: w)) with (let '(q, n) := init_queue_n m (S i) (b :: w) in (match mfind (s_c a) (s_c b) m with Some (rank, new) => mkMerge i rank new :: q | None => q end, S n)).
  change (init_queue m i (a :: b :: w)) with (match mfind (s_c a) (s_c b) m with Some (rank, new) => mkMerge i rank new :: init_queue m (S i) (b :: w) | None => init_queue m (S i) (b :: w) end).
  destruct (init_queue_n m (S i) (b :: w)) as [q n]. cbn [fst] in *. rewrite <- IH. reflexivity.
Qed.
Lemma merge_step_same m w top : fst (merge_step_n m w top) = merge_step m w top.
Proof.
  unfold merge_step_n, merge_step. destruct (vat w (mg_pos top)) as [cur| | |]; cbn [bind]; try reflexivity. destruct (s_len cur =? 0); [reflexivity|]. destruct (s_next cur) as [np|]; [|reflexivity].
  destruct (nth_error w np) as [rt|]; [|reflexivity]. destruct (mfind (s_c cur) (s_c rt) m) as [[r0 new]|]; [|reflexivity]. destruct (negb (new =? mg_new top)%Z); [reflexivity|]. cbv zeta.
  destruct (vset w _ _) as [w1| | |]; cbn [bind]; try reflexivity. destruct (vset w1 _ _) as [w2| | |]; cbn [bind]; try reflexivity.
  match goal with |- fst (match ?x with _ => _ end) = bind ?y _ => change y with x; destruct x as [w3| | |] end; cbn [bind]; try reflexivity. cbn [s_prev s_next].
  destruct (s_prev cur) as [pv|]; [destruct (nth_error w3 pv)|]; (destruct (s_next rt) as [nx|]; [destruct (nth_error w3 nx)|]); reflexivity.
Qed.
Lemma merge_loop_same E m d : forall fuel k w q s, fst (merge_loop_n E fuel m d k w q s) = merge_loop E fuel m d k w q s.
Proof.
  induction fuel as [|f IH]; intros k w q s; cbn [merge_loop_n merge_loop]; destruct (e_pq E q) as [[top q']|]; try reflexivity. destruct (dropped E d k).
  - specialize (IH (S k) w q' (s ++ [top])). destruct (merge_loop_n _ _ _ _ _ _ _ _) as [r [p n]]. exact IH.
  - rewrite <- merge_step_same. destruct (merge_step_n m w top) as [[[w' new]| | |] n]; cbn [fst bind]; try reflexivity. specialize (IH (S k) w' (q' ++ s ++ new) []). destruct (merge_loop_n _ _ _ _ _ _ _ _) as [r [p n']]. exact IH.
Qed.
Lemma merge_all_same E m d w : fst (merge_all_n E m d w) = merge_all E m d w.
Proof.
  unfold merge_all_n, merge_all. destruct w as [|x w]; [reflexivity|]. pose proof (init_queue_same m (x :: w) 0) as H. destruct (init_queue_n m 0 (x :: w)) as [q n]. cbn [fst] in H. subst q.
  pose proof (merge_loop_same E m d (merge_fuel (length (x :: w))) 0 (x :: w) (init_queue m 0 (x :: w)) []) as H. destruct (merge_loop_n _ _ _ _ _ _ _ _) as [r [p n']]. cbn [fst] in *. rewrite H. reflexivity.
Qed.
Lemma bpe_splits_same E b : forall l c, fst (bpe_splits_n E b c l) = bpe_splits E b c l.
Proof.
  induction l as [|s l IH]; intros c; [reflexivity|]. cbn [bpe_splits_n bpe_splits]. destruct (bpe_word E b c (sp_text s)) as [c' [ts| | |]]; try reflexivity.
  specialize (IH c'). destruct (bpe_splits_n E b c' l) as [[c'' rest] n]. cbn [fst] in IH. rewrite <- IH. reflexivity.
Qed.
Lemma raw_matches_same ids u : forall todo i cur, fst (raw_matches_n ids u todo i cur) = raw_matches ids u todo i cur.
Proof.
  induction todo as [|n IH]; intros i cur; cbn [raw_matches_n raw_matches]; [destruct (i =? cur); reflexivity|]. cbv zeta.
  match goal with |- context [raw_matches_n ids u n (S i) ?c] => specialize (IH (S i) c); destruct (raw_matches_n ids u n (S i) c) as [rest cc] end. cbn [fst] in *. rewrite <- IH. reflexivity.
Qed.
Theorem C138_counted : forall E,
  (forall w p, wp_tokenize w p = (l <- fst (wp_splits_n w (pt_splits p)) ;; Ok (mkPt (pt_norm p) l))) /\
  (forall m d w, merge_all E m d w = fst (merge_all_n E m d w)) /\
  (forall b c p, bpe_tokenize E b c p = let '(c', r) := fst (bpe_splits_n E b c (pt_splits p)) in (c', l <- r ;; Ok (mkPt (pt_norm p) l))) /\
  (forall ids u todo i cur, raw_matches ids u todo i cur = fst (raw_matches_n ids u todo i cur)).
Proof.
  intros E. split; [|split; [|split]].
  - intros w p. unfold wp_tokenize. rewrite wp_splits_same. reflexivity.
  - intros. symmetry. apply merge_all_same.
  - intros. unfold bpe_tokenize. rewrite bpe_splits_same. reflexivity.
  - intros. symmetry. apply raw_matches_same.
Qed.
Print Assumptions C138_counted.

(** ** WordPiece *)
Lemma longest_count w u start : forall k, match wp_longest_n w u start k with (Some (_, j), n) => 1 <= j <= k /\ n = k - j + 1 | (None, n) => n = k end.
Proof.
  induction k as [|k IH]; [reflexivity|]. cbn [wp_longest_n]. destruct (sfind _ _); [lia|]. destruct (wp_longest_n w u start k) as [[[i j]|] n]; lia.
Qed.
(* from start on: at most 1 + 2 + ... + (length u - start) *)
Lemma loop_count w u : forall fuel start, 2 * snd (wp_loop_n fuel w u start) <= (length u - start) * (length u - start + 1).
Proof.
  induction fuel as [|f IH]; intros start; [apply Nat.le_0_l|]. cbn [wp_loop_n]. destruct (Nat.ltb_spec start (length u)) as [H|H]; [|apply Nat.le_0_l].
  pose proof (longest_count w u start (length u - start)) as K. destruct (wp_longest_n w u start (length u - start)) as [[[i j]|] n]; [|cbn [snd]; rewrite K; set (d := length u - start) in *; assert (1 <= d) by (unfold d; lia); clearbody d; nia].
  specialize (IH (start + j)). destruct (wp_loop_n f w u (start + j)) as [r n']. cbn [snd] in *. replace (length u - (start + j)) with (length u - start - j) in IH by lia. set (d := length u - start) in *. destruct K as [K ->].
  assert (exists e, d = j + e) as [e Hd] by (exists (d - j); lia). rewrite Hd in *. replace (j + e - j) with e in * by lia. nia.
Qed.
Theorem C138_wordpiece_word : forall w t, let n := length (from_utf8 t) in
  ((wp_max w < Z.of_nat n)%Z -> snd (wp_word_n w t) = 1) /\ 2 * snd (wp_word_n w t) <= n * (n + 1) + 2.
Proof.
  intros w t n. unfold wp_word_n. fold n. destruct (Z.ltb_spec (wp_max w) (Z.of_nat n)) as [H|H]; [cbn [snd]; split; [reflexivity | lia]|]. split; [lia|].
  pose proof (loop_count w (from_utf8 t) (S n) 0) as K. fold n in K. rewrite Nat.sub_0_r in K. destruct (wp_loop_n (S n) w (from_utf8 t) 0) as [[[ts|]| | |] k]; cbn [snd] in *; lia.
Qed.
Print Assumptions C138_wordpiece_word.

Lemma word_count_max w t : 2 * snd (wp_word_n w t) <= length (from_utf8 t) * (Z.to_nat (wp_max w) + 1) + 2.
Proof.
  destruct (C138_wordpiece_word w t) as [H1 H2]. destruct (Z.ltb_spec (wp_max w) (Z.of_nat (length (from_utf8 t)))) as [H|H]; [rewrite (H1 H); lia|].
  set (n := length (from_utf8 t)) in *. assert (n <= Z.to_nat (wp_max w)) by lia. nia.
Qed.
Lemma splits_count w : forall l, 2 * snd (wp_splits_n w l) <= list_sum (map (fun s => length (from_utf8 (sp_text s))) l) * (Z.to_nat (wp_max w) + 1) + 2 * length l.
Proof.
  induction l as [|s l IH]; [cbn; lia|]. cbn [wp_splits_n]. pose proof (word_count_max w (sp_text s)) as H. destruct (wp_word_n w (sp_text s)) as [ts n]. cbn [snd] in H.
  cbn [map length]. change (list_sum (?x :: ?y)) with (x + list_sum y). set (M := Z.to_nat (wp_max w) + 1) in *. set (L := list_sum _) in *.
  destruct ts as [ts| | |]; [destruct (wp_splits_n w l) as [rest n']|..]; cbn [snd] in *; nia.
Qed.
Lemma units_of_words E t s n av p l : s <> [] -> forallb valid_cp s = true -> forallb valid_cp n = true -> normalized_in_place E t s n -> words_of E (tz_pre t) n l -> prepare E t s = Ok (av, p) ->
  map sp_text (pt_splits p) = map (fun x => utf8_encs (snd x)) l /\ Forall (fun x => forallb valid_cp (snd x) = true) l.
Proof.
  intros Hne Hv Hvn HN HW HP. destruct (prepare_words E t s n l Hne Hv Hvn HN HW) as (A & av' & junk & q & Q1 & HQ). rewrite Q1 in HP. inversion HP; subst. cbn [pt_splits]. split; [|exact A].
  rewrite !map_map. apply map_ext. intros []. reflexivity.
Qed.
Theorem C138_wordpiece : forall E t w s n, tz_model t = Some (MWordPiece w) -> s <> [] -> forallb valid_cp s = true -> forallb valid_cp n = true -> normalized_in_place E t s n ->
  (forall p, tz_pre t = Some p -> cuttable E p /\ keeps_characters E p) ->
  exists words, words_of E (tz_pre t) n words /\ 2 * encode_lookups E t s <= units s * (Z.to_nat (wp_max w) + 1) + 2 * length words /\ length words <= units s.
Proof.
  intros E t w s n Hm Hne Hv Hvn HN Hp. destruct (C95_words E (tz_pre t) n (fun p H => proj1 (Hp p H)) Hvn) as (l & Hl & _). exists l. split; [exact Hl|].
  assert (Hnn : n <> []) by (destruct HN as (HN & _); unfold normalized_to in HN; destruct (tz_av t); [apply HN | subst n; exact Hne]).
  pose proof (C95_inside E (tz_pre t) n l Hnn (fun p H => proj2 (Hp p H)) Hl) as HI.
  assert (KT : total units l <= units n). { destruct (tz_pre t) as [p|]; cbn [words_of] in Hl; [|subst l; unfold total; cbn [map list_sum fold_right snd]; lia]. pose proof (cuts_total units units_app E p _ _ (proj2 (Hp p eq_refl)) Hl) as K'. unfold total in K' at 2. cbn [map list_sum fold_right snd] in K'. lia. }
  assert (Hu : units n <= units s) by apply HN.
  assert (HL : length l <= total units l). { clear - HI. induction HI as [|p l H _ IH]; [cbn; lia|]. rewrite total_cons. cbn [length]. destruct H as (H & _). pose proof (units_pos (snd p) H) as HP. etransitivity; [exact (le_n_S _ _ IH)|]. change (S (total units l)) with (1 + total units l). apply Nat.add_le_mono_r. exact HP. }
  split; [|lia]. destruct (prepare_words E t s n l Hne Hv Hvn HN Hl) as (A & av & junk & q & Q1 & HQ). unfold encode_lookups. rewrite Q1, Hm.
  destruct (units_of_words E t s n _ _ l Hne Hv Hvn HN Hl Q1) as [U1 U2]. pose proof (splits_count w (pt_splits (mkPt (numbered_ns (unit_sizes s) junk s) (map (fun p => mkSplit (utf8_encs (fst p)) (snd p) []) q)))) as K. cbn [pt_splits] in *.
  set (sp := map (fun p => mkSplit (utf8_encs (fst p)) (snd p) []) q) in *. assert (EL : length sp = length l) by (rewrite <- (map_length sp_text), U1, map_length; reflexivity).
  assert (ES : list_sum (map (fun x => length (from_utf8 (sp_text x))) sp) = total units l).
  { rewrite <- (map_map sp_text (fun x => length (from_utf8 x))), U1, map_map. unfold total. f_equal. apply map_ext_in. intros x Hx. rewrite Forall_forall in U2. rewrite from_utf8_encs by (apply U2; exact Hx). reflexivity. }
  rewrite EL, ES in K. nia.
Qed.
Print Assumptions C138_wordpiece.
(** The bound is reached: a word of n letters in a vocabulary that knows single letters only. *)
Definition letters_wp (max : Z) : wordpiece := mkWp [(str "a", 0%Z); (str "##a", 1%Z)] (str "[UNK]") max (str "##").
Definition letters_tz (max : Z) : tokenizer := mkTz None None None None None (Some (MWordPiece (letters_wp max))) None None.
Lemma firstn_repeat {A} (x : A) : forall n k, firstn k (repeat x n) = repeat x (Nat.min k n).
Proof. induction n as [|n IH]; intros [|k]; try reflexivity. cbn [repeat firstn Nat.min]. rewrite IH. reflexivity. Qed.
Lemma skipn_repeat {A} (x : A) : forall n k, skipn k (repeat x n) = repeat x (n - k).
Proof. induction n as [|n IH]; intros [|k]; try reflexivity. cbn [repeat skipn Nat.sub]. apply IH. Qed.
Lemma to_utf8_a k : to_utf8 (repeat 97%N k) = repeat 97%N k.
Proof.
  assert (H : forallb valid_cp (repeat 97%N k) = true) by (induction k; [reflexivity | exact IHk]).
  assert (E : flat_map utf16_enc (repeat 97%N k) = repeat 97%N k) by (clear H; induction k as [|k IH]; [reflexivity|]; cbn [repeat flat_map]; rewrite IH; reflexivity).
  assert (E2 : utf8_encs (repeat 97%N k) = repeat 97%N k) by (clear H E; induction k as [|k IH]; [reflexivity|]; cbn [repeat]; unfold utf8_encs in *; cbn [flat_map]; rewrite IH; reflexivity).
  rewrite <- E at 1. rewrite to_utf8_encs by exact H. exact E2.
Qed.
Lemma letters_longest max n start : forall k, start + S k <= n -> exists i, wp_longest_n (letters_wp max) (repeat 97%N n) start (S k) = (Some (i, 1), S k).
Proof.
  assert (C : forall k, start + k <= n -> wp_candidate (letters_wp max) (repeat 97%N n) start k = (if 0 <? start then str "##" else []) ++ repeat 97%N k).
  { intros k Hk. unfold wp_candidate, usub. rewrite skipn_repeat, firstn_repeat, Nat.min_l by lia. rewrite to_utf8_a. destruct (0 <? start); reflexivity. }
  induction k as [|k IH]; intros Hk.
  - cbn [wp_longest_n]. rewrite (C 1) by lia. destruct (0 <? start); cbn; eauto.
  - destruct IH as [i IH]; [lia|]. change (wp_longest_n (letters_wp max) (repeat 97%N n) start (S (S k))) with
      (match sfind (wp_candidate (letters_wp max) (repeat 97%N n) start (S (S k))) (wp_vocab (letters_wp max)) with Some i => (Some (i, S (S k)), 1) | None => let '(r, n) := wp_longest_n (letters_wp max) (repeat 97%N n) start (S k) in (r, S n) end).
    rewrite (C (S (S k))) by lia. assert (F : sfind ((if 0 <? start then str "##" else []) ++ repeat 97%N (S (S k))) (wp_vocab (letters_wp max)) = None) by (destruct (0 <? start); reflexivity).
    rewrite F, IH. eauto.
Qed.
Lemma letters_loop max n : forall d fuel start, start + d = n -> d < fuel -> 2 * snd (wp_loop_n fuel (letters_wp max) (repeat 97%N n) start) = d * (d + 1) /\ exists ts, fst (wp_loop_n fuel (letters_wp max) (repeat 97%N n) start) = Ok (Some ts).
Proof.
  induction d as [|d IH]; intros fuel start Hd Hf; (destruct fuel as [|f]; [lia|]); cbn [wp_loop_n]; rewrite repeat_length.
  - replace (start <? n) with false by lia. split; [reflexivity | eexists; reflexivity].
  - replace (start <? n) with true by lia. replace (n - start) with (S d) by lia. destruct (letters_longest max n start d ltac:(lia)) as [i ->].
    destruct (IH f (start + 1) ltac:(lia) ltac:(lia)) as [H1 [ts H2]]. destruct (wp_loop_n f _ _ (start + 1)) as [r n']. cbn [fst snd] in *. subst r. cbn [bind]. split; [nia | eexists; reflexivity].
Qed.
Theorem C138_wordpiece_worst : forall E n max, (Z.of_nat n <= max)%Z -> 2 * encode_lookups E (letters_tz max) (repeat 97%N n) = n * (n + 1).
Proof.
  intros E n max Hn. assert (Hv : forallb valid_cp (repeat 97%N n) = true) by (clear; induction n; [reflexivity | exact IHn]).
  assert (EU : flat_map utf16_enc (repeat 97%N n) = repeat 97%N n) by (clear; induction n as [|n IH]; [reflexivity|]; cbn [repeat flat_map]; rewrite IH; reflexivity).
  unfold encode_lookups, prepare. unfold new_pretok, convert_to_string. cbn [ns_text new_nstring]. rewrite new_text, Hv. cbn [bind tz_av tz_pre letters_tz tz_model pt_splits wp_splits_n sp_text].
  unfold wp_word_n. rewrite from_utf8_encs, EU, repeat_length by exact Hv. cbn [wp_max letters_wp]. replace (max <? Z.of_nat n)%Z with false by lia.
  destruct (letters_loop max n n (S n) 0 eq_refl ltac:(lia)) as [H1 [ts H2]]. destruct (wp_loop_n (S n) _ _ 0) as [r k]. cbn [fst snd] in *. subst r. cbn [bind snd]. lia.
Qed.
Print Assumptions C138_wordpiece_worst.

(** ** BPE *)
Lemma init_queue_count m : forall w i, length (init_queue m i w) <= length w - 1 /\ snd (init_queue_n m i w) = length w - 1.
Proof.
  induction w as [|a w IH]; intros i; [cbn; lia|]. destruct w as [|b w]; [cbn; lia|]. specialize (IH (S i)). pose proof (init_queue_same m (b :: w) (S i)) as HS.
  change (init_queue_n m i (a :: b :: w)) with (let '(q, n) := init_queue_n m (S i) (b :: w) in (match mfind (s_c a) (s_c b) m with Some (rank, new) => mkMerge i rank new :: q | None => q end, S n)).
  change (init_queue m i (a :: b :: w)) with (match mfind (s_c a) (s_c b) m with Some (rank, new) => mkMerge i rank new :: init_queue m (S i) (b :: w) | None => init_queue m (S i) (b :: w) end).
  destruct (init_queue_n m (S i) (b :: w)) as [q n]. cbn [fst snd] in *. cbn [length] in *. destruct (mfind _ _ m) as [[? ?]|]; cbn [length]; lia.
Qed.
Lemma step_count3 m w top : snd (merge_step_n m w top) <= 3.
Proof.
  unfold merge_step_n. destruct (vat w (mg_pos top)) as [cur| | |]; cbn [snd]; try lia. destruct (s_len cur =? 0); [cbn [snd]; lia|]. destruct (s_next cur) as [np|]; [|cbn [snd]; lia].
  destruct (nth_error w np) as [rt|]; [|cbn [snd]; lia]. destruct (mfind (s_c cur) (s_c rt) m) as [[r0 new]|]; [|cbn [snd]; lia]. destruct (negb (new =? mg_new top)%Z); [cbn [snd]; lia|]. cbv zeta.
  match goal with |- snd (match ?x with _ => _ end) <= _ => destruct x as [w3| | |] end; cbn [snd]; try lia. cbn [s_prev s_next].
  destruct (s_prev cur) as [pv|]; [destruct (nth_error w3 pv)|]; (destruct (s_next rt) as [nx|]; [destruct (nth_error w3 nx)|]); cbn [snd]; lia.
Qed.
Lemma vset_get {A} (l : list A) i x l' : vset l i x = Ok l' -> forall j, nth_error l' j = if j =? i then Some x else nth_error l j.
Proof.
  intros H j. assert (Hi : i < length l) by (unfold vset in H; destruct (Nat.ltb_spec i (length l)); [assumption | discriminate]).
  destruct (vset_nth l i x Hi) as (l2 & E & HL & HN). assert (l2 = l') by congruence. subst l2. destruct (Nat.eqb_spec j i) as [->|Hne]; [|rewrite HN]; [rewrite HN, Nat.eqb_refl | replace (j =? i) with false by lia]; reflexivity.
Qed.
(* a step that searches more than once changes the word *)
Lemma step_changes m w top idx w' new : Inv w idx -> fst (merge_step_n m w top) = Ok (w', new) -> snd (merge_step_n m w top) <= 1 \/ w' <> w.
Proof.
  intros HI. unfold merge_step_n. unfold vat. destruct (nth_error w (mg_pos top)) as [cur|] eqn:Ec; cbn [fst snd]; [|discriminate]. destruct (Nat.eqb_spec (s_len cur) 0) as [|Hl]; [cbn [snd]; left; lia|].
  destruct (s_next cur) as [np|] eqn:En; [|cbn [snd]; left; lia]. destruct (nth_error w np) as [rt|] eqn:Er; [|cbn [snd]; left; lia]. destruct (mfind (s_c cur) (s_c rt) m) as [[r0 new0]|]; [|cbn [snd]; left; lia].
  destruct (negb (new0 =? mg_new top)%Z); [cbn [snd]; left; lia|]. cbv zeta.
  assert (Hin : In (mg_pos top) idx) by (apply (inv_live w idx HI); exists cur; split; [exact Ec | lia]). apply In_nth_error in Hin as [k Hk].
  destruct (inv_link w idx HI k _ Hk) as (s & Es & _ & _ & Hsn). assert (s = cur) by congruence. subst s. rewrite En in Hsn. destruct (inv_link w idx HI (S k) np (eq_sym Hsn)) as (rt' & Er' & Hrl & _ & _). assert (rt' = rt) by congruence. subst rt'.
  destruct (vset w (mg_pos top) _) as [w1| | |] eqn:E1; cbn [bind]; try discriminate. destruct (vset w1 np _) as [w2| | |] eqn:E2; cbn [bind]; try discriminate.
  assert (H2 : exists x, nth_error w2 np = Some x /\ s_len x = 0) by (rewrite (vset_get _ _ _ _ E2), Nat.eqb_refl; eexists; split; reflexivity). destruct H2 as (x2 & H2 & H2').
  assert (K : forall w3, match s_next rt with Some nn => match nth_error w2 nn with Some x => vset w2 nn (mkSym (s_c x) (Some (mg_pos top)) (s_next x) (s_len x)) | None => Ok w2 end | None => Ok w2 end = Ok w3 -> w3 <> w).
  { intros w3 H3 ->. assert (H4 : exists x, nth_error w np = Some x /\ s_len x = 0).
    { destruct (s_next rt) as [nn|]; [|inversion H3; subst; eauto]. destruct (nth_error w2 nn) as [x|] eqn:Ex; [|inversion H3; subst; eauto]. rewrite (vset_get _ _ _ _ H3). destruct (Nat.eqb_spec np nn) as [->|]; [|eauto]. eexists. split; [reflexivity|]. cbn [s_len]. assert (x = x2) by congruence. subst. exact H2'. }
    destruct H4 as (x & Hx & Hx'). assert (x = rt) by congruence. subst x. lia. }
  match goal with |- context [match ?x with Ok _ => _ | Throw _ => _ | Undef _ => _ | Diverge => _ end] => destruct x as [w3| | |] eqn:E3 end; cbn [fst snd]; try discriminate.
  intros H. right. assert (w' = w3) as ->; [|apply (K w3 eq_refl)]. revert H. cbn [s_prev s_next].
  destruct (s_prev cur) as [pv|]; [destruct (nth_error w3 pv)|]; (destruct (s_next rt) as [nx|]; [destruct (nth_error w3 nx)|]); cbn [fst]; congruence.
Qed.
Lemma not_dropped E d k : QArith_base.Qeq_bool d (QArith_base.Qmake 0 1) = true -> dropped E d k = false.
Proof. intros H. unfold dropped. rewrite H. reflexivity. Qed.
Lemma loop_turns E m d : pq_ok E -> (forall k, dropped E d k = false) -> forall fuel k w idx q, Inv w idx -> (forall e, In e q -> mg_pos e < length w) ->
  fst (snd (merge_loop_n E fuel m d k w q [])) <= length q + 2 * (length idx - 1) /\
  snd (snd (merge_loop_n E fuel m d k w q [])) <= length q + 4 * (length idx - 1).
Proof.
  intros Hpq Hd. induction fuel as [|f IH]; intros k w idx q HI Hp; cbn [merge_loop_n]; pose proof (Hpq q) as Hq; destruct (e_pq E q) as [[top q']|]; cbn [fst snd]; try (subst; cbn [length]; lia); try lia.
  destruct Hq as [Hperm _]. pose proof (Permutation_length Hperm) as HL. cbn [length] in HL. rewrite Hd.
  assert (Hq' : forall e, In e q' -> mg_pos e < length w) by (intros e He; apply Hp; eapply Permutation_in; [apply Permutation_sym; exact Hperm | right; exact He]).
  assert (Ht : mg_pos top < length w) by (apply Hp; eapply Permutation_in; [apply Permutation_sym; exact Hperm | left; reflexivity]).
  destruct (merge_step_spec m w idx top HI Ht) as (w1 & new & Hms & Hsr). pose proof (merge_step_same m w top) as HS. pose proof (step_count3 m w top) as H3. pose proof (step_changes m w top idx w1 new HI) as HC.
  destruct (merge_step_n m w top) as [r n]. cbn [fst snd] in *. subst r. rewrite Hms. specialize (HC Hms). cbn [app].
  destruct Hsr as [Hrej | A j B w1 new a la b lb rank Hidx Ha Hb Hm Hlen HI1 Hlk Hsame Hnew Hnpos Hnl Hcomp].
  - destruct HC as [HC|HC]; [|congruence]. specialize (IH (S k) w idx (q' ++ []) HI). rewrite app_nil_r in *. specialize (IH Hq'). destruct (merge_loop_n E f m d (S k) w q' []) as [r [p n']]. cbn [fst snd] in *. lia.
  - specialize (IH (S k) w1 (A ++ mg_pos top :: B) (q' ++ new) HI1). destruct (merge_loop_n E f m d (S k) w1 (q' ++ new) []) as [r [p n']]. cbn [fst snd] in *.
    destruct IH as [I1 I2]; [intros e He; rewrite Hlen; apply in_app_iff in He as [He|He]; auto|]. subst idx. rewrite !app_length in *. cbn [length] in *. lia.
Qed.
Lemma loop_fuel E m d : forall fuel k w q s, fst (snd (merge_loop_n E fuel m d k w q s)) <= fuel /\ snd (snd (merge_loop_n E fuel m d k w q s)) <= 3 * fst (snd (merge_loop_n E fuel m d k w q s)).
Proof.
  induction fuel as [|f IH]; intros k w q s; cbn [merge_loop_n]; destruct (e_pq E q) as [[top q']|]; cbn [fst snd]; try lia. destruct (dropped E d k).
  - specialize (IH (S k) w q' (s ++ [top])). destruct (merge_loop_n _ _ _ _ _ _ _ _) as [r [p n]]. cbn [fst snd] in *. lia.
  - pose proof (step_count3 m w top) as H3. destruct (merge_step_n m w top) as [[[w' new]| | |] n]; cbn [fst snd] in *; try lia. specialize (IH (S k) w' (q' ++ s ++ new) []). destruct (merge_loop_n _ _ _ _ _ _ _ _) as [r [p n']]. cbn [fst snd] in *. lia.
Qed.
Lemma symbols_bound b s : length (initial_symbols b s) <= length s * per_byte b.
Proof.
  destruct (initial_eq b s) as (_ & Hp & ->). rewrite word_of_length. etransitivity; [|apply covered_bound].
  assert (H : total_len (initial b s) = covered b s) by (apply symbols_total, C33_initial_symbols). rewrite <- H. clear H.
  induction Hp as [|p l Hx _ IH]; [cbn; lia|]. change (total_len (p :: l)) with (snd p + total_len l). cbn [length]. lia.
Qed.
Theorem C138_bpe_word : forall E b s, pq_ok E -> initial_symbols b s <> [] -> let k := length (initial_symbols b s) in
  let '(taken, searches) := snd (merge_all_n E (b_merges b) (b_dropout b) (initial_symbols b s)) in
  (no_dropout b -> taken <= 3 * (k - 1) /\ searches <= 6 * (k - 1)) /\ taken <= (4 * k + 1) * (4 * k + 2) /\ searches <= 3 * taken + (k - 1) /\ k <= length s * per_byte b.
Proof.
  intros E b s Hq Hne k. pose proof (symbols_bound b s) as HB. fold k in HB. destruct (initial_eq b s) as (_ & Hp & HI). unfold merge_all_n.
  destruct (initial_symbols b s) as [|x w] eqn:Ei; [congruence|]. clear Hne. pose proof (init_queue_same (b_merges b) (x :: w) 0) as HS. destruct (init_queue_count (b_merges b) (x :: w) 0) as [H1 H2].
  assert (Hpos : forall e, In e (init_queue (b_merges b) 0 (x :: w)) -> mg_pos e < length (x :: w)) by (intros e He; apply init_queue_in in He as (j & a & c & J1 & _ & J3 & _); cbn in J3; rewrite J3; apply nth_error_Some; congruence).
  destruct (init_queue_n (b_merges b) 0 (x :: w)) as [q n]. cbn [fst snd] in *. subst q n. fold k in H1 |- *.
  pose proof (loop_fuel E (b_merges b) (b_dropout b) (merge_fuel k) 0 (x :: w) (init_queue (b_merges b) 0 (x :: w)) []) as [F1 F2].
  assert (HT : no_dropout b -> _) by (intros Hd; exact (loop_turns E (b_merges b) (b_dropout b) Hq (fun j => not_dropped E _ j (proj1 (no_dropout_bool b) Hd)) (merge_fuel k) 0 (x :: w) (seq 0 (length (initial b s))) (init_queue (b_merges b) 0 (x :: w)) ltac:(rewrite HI; apply word_of_inv; exact Hp) Hpos)).
  assert (HK : length (initial b s) = k) by (unfold k; rewrite HI; symmetry; apply word_of_length). rewrite seq_length, HK in HT.
  destruct (merge_loop_n E (merge_fuel k) _ _ 0 _ _ []) as [r [p n]]. cbn [fst snd] in *. unfold merge_fuel in F1. repeat split; try lia; specialize (HT H); lia.
Qed.
Print Assumptions C138_bpe_word.

(** ** Merge rules copied *)
Lemma splits_calls E b : no_dropout b -> forall l c, exists extra, fst (fst (bpe_splits_n E b c l)) = c ++ extra /\ (forall out, snd (fst (bpe_splits_n E b c l)) = Ok out -> snd (bpe_splits_n E b c l) = length extra).
Proof.
  intros Hd. induction l as [|s l IH]; intros c; cbn [bpe_splits_n]; [exists []; rewrite app_nil_r; split; reflexivity|].
  rewrite (proj1 (no_dropout_bool b) Hd). unfold bpe_word. rewrite (proj1 (no_dropout_bool b) Hd).
  assert (HW : exists e, fst (tokenize_with_cache E b c (sp_text s)) = c ++ e /\ forall ts, snd (tokenize_with_cache E b c (sp_text s)) = Ok ts -> merges_word b c (sp_text s) = length e).
  { unfold tokenize_with_cache, merges_word. destruct (if b_ignore_merges b then sfind (sp_text s) (b_vocab b) else None); [exists []; rewrite app_nil_r; split; reflexivity|]. destruct (sfind (sp_text s) c) as [w|] eqn:Ec; [exists []; rewrite app_nil_r; split; reflexivity|].
    destruct (merge_word E b (sp_text s)) as [w| | |]; try (exists []; rewrite app_nil_r; split; [reflexivity | discriminate]). destruct (word_to_tokens (b_vocab b) 0 w); try (exists []; rewrite app_nil_r; split; [reflexivity | discriminate]).
    exists [(sp_text s, w)]. cbn [fst]. unfold sinsert. rewrite Ec. split; reflexivity. }
  destruct HW as (e & He & Hn). destruct (tokenize_with_cache E b c (sp_text s)) as [c' [ts| | |]]; cbn [fst snd] in *; subst c'; try (exists e; split; [reflexivity | discriminate]).
  destruct (IH (c ++ e)) as (x & Hx & Hy). destruct (bpe_splits_n E b (c ++ e) l) as [[c'' rest] n]. cbn [fst snd] in *. exists (e ++ x). rewrite Hx, app_assoc. split; [reflexivity|]. intros out Ho. destruct rest as [o| | |]; try discriminate. rewrite (Hn ts eq_refl), (Hy o eq_refl), app_length. reflexivity.
Qed.
Lemma splits_calls_dropout E b : ~ no_dropout b -> forall l c out, snd (fst (bpe_splits_n E b c l)) = Ok out -> snd (bpe_splits_n E b c l) = length l.
Proof.
  intros Hd. assert (HQ : QArith_base.Qeq_bool (b_dropout b) (QArith_base.Qmake 0 1) = false) by (destruct (QArith_base.Qeq_bool _ _) eqn:Eq; [exfalso; apply Hd, no_dropout_bool; exact Eq | reflexivity]).
  induction l as [|s l IH]; intros c out; cbn [bpe_splits_n]; [reflexivity|]. rewrite HQ. destruct (bpe_word E b c (sp_text s)) as [c' [ts| | |]]; cbn [fst snd]; try discriminate. specialize (IH c').
  destruct (bpe_splits_n E b c' l) as [[c'' rest] n]. cbn [fst snd] in *. destruct rest as [o| | |]; try discriminate. intros _. rewrite (IH o eq_refl). reflexivity.
Qed.
(* every word has something in the vocabulary: all splits are tokenized *)
Lemma splits_okay E vocab merges d unk pre suf fu bf ig b : pq_ok E -> new_bpe vocab merges d unk pre suf fu bf ig = Ok b -> forall l c, cache_ok E b c ->
  Forall (fun y => exists w, sp_text y = utf8_encs w /\ encodable b w) l -> exists out, snd (bpe_splits E b c l) = Ok out.
Proof.
  intros Hq Hb. induction l as [|s l IH]; intros c Hc HF; [exists []; reflexivity|]. inversion HF as [|? ? (w & F1 & F2) F3]; subst. cbn [bpe_splits].
  destruct (bpe_word_transparent E b c (sp_text s) Hc) as [T1 T2]. destruct (word_cases E b vocab merges d unk pre suf fu bf ig Hq Hb w) as [(_ & ts & T & _)|(Hno & _)]; [|contradiction]. rewrite F1 in *. rewrite T in T1.
  destruct (bpe_word E b c (utf8_encs w)) as [c' r]. cbn [fst snd] in *. subst r. destruct (IH c' T2 F3) as [out H]. destruct (bpe_splits E b c' l) as [c'' rest]. cbn [snd] in *. subst rest. eexists. reflexivity.
Qed.
Theorem C138_bpe_copies : forall E fuel t vocab merges d unk pre suf fu bf ig b c s n l add, pq_ok E -> new_bpe vocab merges d unk pre suf fu bf ig = Ok b ->
  tz_model t = Some (MBpe b c) -> reach_cache E b c -> s <> [] -> forallb valid_cp s = true -> forallb valid_cp n = true -> normalized_in_place E t s n ->
  words_of E (tz_pre t) n l -> Forall (fun p => encodable b (snd p)) l ->
  (no_dropout b -> exists c' new, tz_model (fst (encode E fuel t s add)) = Some (MBpe b c') /\ cached c' = cached c ++ new /\ NoDup (cached c') /\
     (forall x, In x new <-> ~ In x (cached c) /\ exists p, In p l /\ x = utf8_encs (snd p) /\ forall i, ~ whole_word b (snd p) i) /\
     encode_copies E t s = length new * length (b_merges b)) /\
  (~ no_dropout b -> encode_copies E t s = length l * length (b_merges b)).
Proof.
  intros E fuel t vocab merges d unk pre suf fu bf ig b c s n l add Hq Hb Hm Hr Hne Hv Hvn HN HW HE.
  destruct (prepare_words E t s n l Hne Hv Hvn HN HW) as (A & av & junk & q & P1 & EQ). set (p := mkPt (numbered_ns (unit_sizes s) junk s) (map (fun p => mkSplit (utf8_encs (fst p)) (snd p) []) q)) in *.
  assert (HF : Forall (fun y => exists w, sp_text y = utf8_encs w /\ encodable b w) (pt_splits p)).
  { subst l. rewrite Forall_map in HE. cbn [fst snd] in HE. unfold p. cbn [pt_splits]. rewrite Forall_map. cbn [sp_text]. eapply Forall_impl; [|exact HE]. cbn beta. eauto. }
  destruct (splits_okay E _ _ _ _ _ _ _ _ _ b Hq Hb (pt_splits p) c (reach_cache_ok E b c Hr) HF) as [out Ho]. rewrite <- bpe_splits_same in Ho.
  split; intros Hd.
  - destruct (C102_encode E fuel t vocab merges d unk pre suf fu bf ig b c s n l add Hq Hb Hm Hr Hd Hne Hv Hvn HN HW HE) as (c' & M1 & M2 & M3).
    destruct (splits_calls E b Hd (pt_splits p) c) as (extra & X1 & X2). specialize (X2 out Ho).
    assert (Hc' : c' = c ++ extra).
    { rewrite <- X1, bpe_splits_same. revert M1. unfold encode. rewrite P1. unfold set_av. cbn [tz_model]. rewrite Hm. cbn [model_tokenize]. unfold bpe_tokenize. destruct (bpe_splits E b c (pt_splits p)) as [c1 r]. cbn [fst]. intros M1. cbn in M1. congruence. }
    assert (HC : cached c' = cached c ++ map fst extra) by (subst c'; unfold cached; apply map_app).
    exists c', (map fst extra). split; [exact M1|]. split; [exact HC|]. split; [exact M2|]. split.
    + intros x. assert (HND : In x (map fst extra) -> ~ In x (cached c)). { intros H1 H2. rewrite HC in M2. clear - M2 H1 H2. induction (cached c) as [|y z IH]; [exact H2|]. cbn [app] in M2. apply NoDup_cons_iff in M2 as [N1 N2]. destruct H2 as [-> |H2]; [apply N1, in_or_app; right; exact H1 | exact (IH N2 H2)]. }
      specialize (M3 x). rewrite HC, in_app_iff in M3. split; [intros H; split; [exact (HND H)|]; destruct (proj1 M3 (or_intror H)) as [K|K]; [destruct (HND H K) | exact K]|]. intros [H1 H2]. destruct (proj2 M3 (or_intror H2)) as [K|K]; [contradiction | exact K].
    + unfold encode_copies. rewrite P1, Hm, X2, map_length. reflexivity.
  - unfold encode_copies. rewrite P1, Hm. rewrite (splits_calls_dropout E b Hd (pt_splits p) c out Ho). unfold copied_entries. f_equal. unfold p. cbn [pt_splits]. rewrite <- EQ, !map_length. reflexivity.
Qed.
Print Assumptions C138_bpe_copies.

(** ** The search for added tokens *)
Lemma usub_len u cur i : i <= length u -> length (usub u cur (i - cur)) = i - cur.
Proof. intros H. unfold usub. rewrite firstn_length, skipn_length. lia. Qed.
Lemma firstn_plus_app {A} (l : list A) a n : firstn (a + n) l = firstn a l ++ firstn n (skipn a l).
Proof. revert l. induction a as [|a IH]; intros l; [reflexivity|]. destruct l as [|x l]; [cbn [Nat.add firstn skipn app]; rewrite firstn_nil; reflexivity|]. cbn [Nat.add firstn skipn app]. rewrite IH. reflexivity. Qed.
Lemma search_bound ids u L : (forall a x z, u = a ++ x ++ z -> ~ In 32%N x -> length x <= L) -> forall todo i cur, i + todo = length u -> (cur <= i -> ~ In 32%N (usub u cur (i - cur))) ->
  snd (raw_matches_n ids u todo i cur) <= S todo * L.
Proof.
  intros HL. assert (HB : forall cur i, i <= length u -> (cur <= i -> ~ In 32%N (usub u cur (i - cur))) -> length (usub u cur (i - cur)) <= L).
  { intros cur i Hi Hs. destruct (Nat.le_gt_cases cur i) as [Hc|Hc]; [|rewrite usub_len by exact Hi; lia]. apply (HL (firstn cur u) _ (skipn i u)); [|exact (Hs Hc)]. unfold usub.
    rewrite <- (firstn_skipn cur u) at 1. f_equal. rewrite <- (firstn_skipn (i - cur) (skipn cur u)) at 1. f_equal. clear - Hc. revert u i Hc. induction cur as [|cur IH]; intros u i Hc; [rewrite Nat.sub_0_r; reflexivity|]. destruct i as [|i]; [lia|]. destruct u as [|x u]; [rewrite !skipn_nil; reflexivity|]. apply (IH u i). lia. }
  induction todo as [|n IH]; intros i cur Hi Hs; cbn [raw_matches_n].
  - specialize (HB cur i ltac:(lia) Hs). destruct (i =? cur); cbn [snd]; lia.
  - cbv zeta. pose proof (HB cur i ltac:(lia) Hs) as H0. match goal with |- context [raw_matches_n ids u n (S i) ?c] => set (c' := c); specialize (IH (S i) c') end. destruct (raw_matches_n ids u n (S i) c') as [rest k]. cbn [snd] in *.
    assert (K : k <= S n * L); [|lia]. apply IH; [lia|]. intros Hc. unfold c' in *. clear IH rest k.
    destruct (nth i u 0 =? 32)%N eqn:E32; [intros HI; rewrite Nat.sub_diag in HI; cbn in HI; exact HI|].
    assert (HO : ~ In 32%N (usub u i (S i - i))). { replace (S i - i) with 1 by lia. unfold usub. intros HI. destruct (skipn i u) as [|x r] eqn:Er; [destruct HI|]. cbn [firstn In] in HI. destruct HI as [-> |[]]. assert (EN : nth i u 0%N = nth 0 (skipn i u) 0%N) by (clear; revert u; induction i as [|i IH]; intros [|y u]; try reflexivity; apply IH). rewrite EN, Er in E32. discriminate. }
    destruct (sfind _ ids); [exact HO|]. destruct (Nat.eq_dec cur (S i)) as [->|Hne]; [rewrite Nat.sub_diag; cbn; auto|]. assert (Hci : cur <= i) by lia. specialize (Hs Hci).
    replace (S i - cur) with (i - cur + 1) by lia. unfold usub in *. rewrite firstn_plus_app. intros HI. apply in_app_iff in HI as [HI|HI]; [exact (Hs HI)|]. rewrite skipn_skipn' in HI. replace (cur + (i - cur)) with i in HI by lia. replace (S i - i) with 1 in HO by lia. exact (HO HI).
Qed.
(* every turn copies at most all units read so far *)
Lemma search_square ids u : forall todo i cur, i + todo = length u -> 2 * snd (raw_matches_n ids u todo i cur) + i * (i - 1) <= length u * (length u + 1).
Proof.
  induction todo as [|n IH]; intros i cur Hi; cbn [raw_matches_n].
  - assert (K : length (usub u cur (i - cur)) <= i) by (rewrite usub_len by lia; lia). replace i with (length u) in * by lia. destruct (length u =? cur); cbn [snd]; nia.
  - cbv zeta. assert (K : length (usub u cur (i - cur)) <= i) by (rewrite usub_len by lia; lia). match goal with |- context [raw_matches_n ids u n (S i) ?c] => specialize (IH (S i) c ltac:(lia)); destruct (raw_matches_n ids u n (S i) c) as [rest k] end. cbn [snd] in *. nia.
Qed.
(* no field end and no hit: every turn copies all of them *)
Lemma search_all ids u : ~ In 32%N u -> (forall k, sfind (to_utf8 (firstn k u)) ids = None) -> forall todo i, i + todo = length u -> 2 * snd (raw_matches_n ids u todo i 0) + i * (i - 1) = length u * (length u + 1).
Proof.
  intros Hs Hn. assert (HU : forall i, usub u 0 (i - 0) = firstn i u) by (intros i; unfold usub; rewrite Nat.sub_0_r; reflexivity).
  induction todo as [|n IH]; intros i Hi; cbn [raw_matches_n]; rewrite !HU.
  - replace i with (length u) by lia. destruct (length u =? 0) eqn:E0; cbn [snd]; [nia|]. rewrite firstn_length. nia.
  - cbv zeta. rewrite Hn. assert (H32 : (nth i u 0 =? 32)%N = false). { apply N.eqb_neq. intros E32. apply Hs. rewrite <- E32. apply nth_In. lia. }
    rewrite H32. specialize (IH (S i) ltac:(lia)). destruct (raw_matches_n ids u n (S i) 0) as [rest k]. cbn [snd] in *. rewrite firstn_length, Nat.min_l by lia. nia.
Qed.
Lemma space_units s : forallb valid_cp s = true -> ~ In 32%N s -> ~ In 32%N (flat_map utf16_enc s).
Proof.
  intros Hv Hs HI. apply in_flat_map in HI as (c & Hc & HI). unfold utf16_enc in HI. destruct (N.ltb_spec c 0x10000); cbn [In] in HI; [destruct HI as [->|[]]; contradiction|]. lia.
Qed.
Theorem C138_search : forall E t av s, tz_av t = Some av -> forallb valid_cp s = true -> let u := flat_map utf16_enc s in
  (forall L, (forall a x z, u = a ++ x ++ z -> ~ In 32%N x -> length x <= L) -> encode_search E t s <= (units s + 1) * L) /\
  2 * encode_search E t s <= units s * (units s + 1) /\
  (~ In 32%N s -> no_added_token (av_trie_raw av) u -> 2 * encode_search E t s = units s * (units s + 1)).
Proof.
  intros E t av s Ha Hv u. unfold encode_search, convert_to_string. rewrite Ha, Hv. cbv zeta. rewrite from_utf8_encs by exact Hv. fold u. change (units s) with (length u).
  set (ids := word_ids (av_trie_raw av)). split; [|split].
  - intros L HL. pose proof (search_bound ids u L HL (length u) 0 0 eq_refl) as K. replace (length u + 1) with (S (length u)) by lia. apply K. intros _ HI. exact HI.
  - pose proof (search_square ids u (length u) 0 0 eq_refl). lia.
  - intros Hs Hn. pose proof (search_all ids u (space_units s Hv Hs)) as K. rewrite <- (K) with (todo := length u) (i := 0); [lia | | reflexivity]. intros k. destruct (sfind (to_utf8 (firstn k u)) ids) as [i|] eqn:Ef; [|reflexivity]. exfalso. apply word_ids_in in Ef.
    apply (Hn 0 (Nat.min k (length u)) i); [lia | lia|]. unfold slice. cbn [skipn]. rewrite Nat.sub_0_r. destruct (Nat.le_gt_cases k (length u)) as [H|H]; [rewrite Nat.min_l by exact H; exact Ef|]. rewrite Nat.min_r by lia. rewrite firstn_all. rewrite firstn_all2 in Ef by lia. exact Ef.
Qed.
Print Assumptions C138_search.

(** Two words of single letters take 6 + 3 look-ups; "ab b ab" makes a BPE tokenizer copy its merge table twice, and not at all the second time; and 40 letters without a space
    make the search for added tokens copy 820 units although no token was added. *)
Definition cost_tz : tokenizer := mkTz None None None None (Some TBert) (Some (MWordPiece (letters_wp 100))) None None.
Example C138_case :
  normalized_in_place test_env cost_tz (str "aaa aa") (str "aaa aa") /\ cuttable test_env TBert /\ keeps_characters test_env TBert /\
  encode_lookups test_env cost_tz (str "aaa aa") = 9 /\ snd (wp_word_n (letters_wp 2) (str "aaa")) = 1 /\ snd (wp_word_n (letters_wp 100) (str "aab")) = 7 /\
  encode_copies test_env (abt []) (str "ab b ab") = 2 * length (b_merges (abt_bpe [])) /\ encode_copies test_env (fst (encode test_env 0 (abt []) (str "ab b ab") true)) (str "ab b ab") = 0 /\
  initial_symbols (abt_bpe []) (str "abab") <> [] /\ snd (merge_all_n test_env (b_merges (abt_bpe [])) (b_dropout (abt_bpe [])) (initial_symbols (abt_bpe []) (str "abab"))) = (2, 7) /\
  encode_search test_env (set_av cost_tz (Some (new_added_vocab []))) (repeat 97%N 40) = 820 /\
  encode_search test_env (set_av cost_tz (Some (new_added_vocab []))) (str "aaa aa") = 9.
Proof.
  split; [split; [reflexivity | split; [apply le_n | discriminate]]|]. split; [vm_compute; auto|]. split; [exact I|]. repeat (split; [vm_compute; (reflexivity || discriminate)|]). vm_compute; reflexivity.
Qed.
Print Assumptions C138_case.
