(** The int arithmetic of added-token extraction: C146. *)
From Verif Require Import Base BaseFacts Unicode UnicodeProofs Common Normalizer DecProofs PreTokenizer WordPiece Bpe AddedVocab AvSpec ExtractProofs NormIntChecked NormIntSpec AddIntChecked AddIntSpec OutSpec PropsNormInt PropsEvery Env.
From Coq Require Import ZifyBool ZifyNat.

Local Notation lim := 2147483648%Z.

(** find_matches *)
Lemma raw_ck_ok ids u todo : forall i cur, (Z.of_nat (i + todo + 1) < lim)%Z -> raw_matches_ck ids u todo i cur = Ok (raw_matches ids u todo i cur).
Proof.
  induction todo as [|n IH]; intros i cur H; cbn [raw_matches_ck raw_matches]; [reflexivity|]. cbv zeta. rewrite (ckn_ok (i + 1)) by lia. rewrite Nat.add_1_r.
  destruct (nth i u 0 =? 32)%N; cbn [bind]; rewrite IH by lia; reflexivity.
Qed.
Definition within (B : nat) (m : nat * nat * Z) : Prop := fst (fst m) <= B /\ snd (fst m) <= B.
Lemma raw_within ids u todo : forall i cur, cur <= i -> Forall (within (i + todo)) (raw_matches ids u todo i cur) /\ length (raw_matches ids u todo i cur) <= todo + 1.
Proof.
  induction todo as [|n IH]; intros i cur Hc; cbn [raw_matches].
  - destruct (i =? cur); [split; [constructor | cbn; lia]|]. destruct (sfind _ ids); [split; [constructor; [split; cbn; lia | constructor] | cbn; lia] | split; [constructor | cbn; lia]].
  - cbv zeta. set (c2 := if (nth i u 0 =? 32)%N then S i else match sfind (to_utf8 (usub u cur (i - cur))) ids with Some _ => i | None => cur end).
    assert (H2 : c2 <= S i) by (unfold c2; destruct (nth i u 0 =? 32)%N; [lia|]; destruct (sfind _ ids); lia). destruct (IH (S i) c2 H2) as [I1 I2]. replace (S i + n) with (i + S n) in I1 by lia.
    destruct (sfind _ ids); [split; [constructor; [split; cbn; lia | exact I1] | cbn [length]; lia] | split; [exact I1 | lia]].
Qed.
Lemma leftmost_len p : space_leftmost_at_end p <= length p.
Proof. unfold space_leftmost_at_end. pose proof (drop_len is_space_byte (rev p)). rewrite rev_length in H. exact H. Qed.
Lemma rightmost_len p : space_rightmost_at_start p <= length p.
Proof. unfold space_rightmost_at_start. lia. Qed.
Lemma substr_len s a b w : substr_range s a b = Ok w -> length w <= length s.
Proof. unfold substr_range. destruct (a <=? length s); [|discriminate]. intros [= <-]. destruct (b <? a); rewrite ?firstn_length, skipn_length; lia. Qed.
(** a gap before a match is never reversed; the last one may be *)
Fixpoint ordered (total : nat) (l : list (option Z * (nat * nat))) : Prop :=
  match l with
  | [] => True
  | (o, (a, b)) :: r => (o = None -> a <= b \/ b = total) /\ ordered total r
  end.
Lemma resolve_ck_ok sentence total B l : (Z.of_nat B < lim)%Z -> length sentence <= B -> total <= B -> forall start_offset map_r, start_offset <= B -> Forall (within B) l ->
  resolve_matches_ck sentence total start_offset map_r l = resolve_matches sentence total start_offset map_r l /\
  forall m ms, resolve_matches sentence total start_offset map_r l = Ok (m, ms) -> Forall (fun p => fst (snd p) <= B /\ snd (snd p) <= B) ms /\ length ms <= 2 * length l + 1 /\ ordered total ms.
Proof.
  intros HB Hs Ht. induction l as [|[[start stop] id] r IH]; intros so map_r Hso Hl; cbn [resolve_matches_ck resolve_matches length].
  - split; [reflexivity|]. intros m ms [= <- <-]. destruct (so =? total); [repeat split; [constructor | cbn; lia]|]. split; [constructor; [cbn; lia | constructor]|]. split; [cbn; lia|]. cbn [ordered]. auto.
  - inversion Hl as [|x y Hx Hr Exy]; subst. destruct Hx as [Hx1 Hx2]. cbn [fst snd] in Hx1, Hx2. destruct (match zfind id map_r with Some t => (t, map_r) | None => (default_added_token, map_r ++ [(id, default_added_token)]) end) as [tok map'].
    match goal with |- context [bind ?k _] => destruct k as [keep| | |]; cbn [bind]; try (split; [reflexivity | discriminate]) end. destruct (negb keep).
    { destruct (IH so map' Hso Hr) as [I1 I2]. split; [exact I1|]. intros m ms E. destruct (I2 m ms E) as (J1 & J2 & J3). repeat split; [exact J1 | lia | exact J3]. }
    assert (A : (if at_lstrip tok then p <- substr_range sentence 0 start ;; new_start <- ckn (space_leftmost_at_end p) ;; Ok (Nat.max new_start so) else Ok start) = (if at_lstrip tok then p <- substr_range sentence 0 start ;; Ok (Nat.max (space_leftmost_at_end p) so) else Ok start) /\
      forall x, (if at_lstrip tok then p <- substr_range sentence 0 start ;; Ok (Nat.max (space_leftmost_at_end p) so) else Ok start) = Ok x -> x <= B).
    { destruct (at_lstrip tok); [|split; [reflexivity|]; intros x [= <-]; exact Hx1]. destruct (substr_range sentence 0 start) as [p| | |] eqn:Ep; cbn [bind]; try (split; [reflexivity | discriminate]). apply substr_len in Ep. pose proof (leftmost_len p). rewrite ckn_ok by lia. cbn [bind]. split; [reflexivity|]. intros x [= <-]. lia. }
    destruct A as [A1 A2]. rewrite A1. clear A1. match goal with |- context [bind ?k _] => destruct k as [start'| | |]; cbn [bind]; try (split; [reflexivity | discriminate]) end. specialize (A2 _ eq_refl).
    assert (C : (if at_rstrip tok then p <- substr_from sentence stop ;; ckn (stop + space_rightmost_at_start p) else Ok stop) = (if at_rstrip tok then p <- substr_from sentence stop ;; Ok (stop + space_rightmost_at_start p) else Ok stop) /\
      forall x, (if at_rstrip tok then p <- substr_from sentence stop ;; Ok (stop + space_rightmost_at_start p) else Ok stop) = Ok x -> x <= B).
    { destruct (at_rstrip tok); [|split; [reflexivity|]; intros x [= <-]; exact Hx2]. unfold substr_from. destruct (Nat.leb_spec stop (length sentence)); cbn [bind]; try (split; [reflexivity | discriminate]). pose proof (rightmost_len (skipn stop sentence)). rewrite skipn_length in H0. rewrite ckn_ok by lia. split; [reflexivity|]. intros x [= <-]. lia. }
    destruct C as [C1 C2]. rewrite C1. clear C1. match goal with |- context [bind ?k _] => destruct k as [stop'| | |]; cbn [bind]; try (split; [reflexivity | discriminate]) end. specialize (C2 _ eq_refl).
    destruct (IH stop' map' C2 Hr) as [I1 I2]. rewrite I1. split; [reflexivity|]. destruct (resolve_matches sentence total stop' map' r) as [[m' rest]| | |]; cbn [bind]; try discriminate. intros m ms [= <- <-]. destruct (I2 _ _ eq_refl) as (J1 & J2 & J3).
    destruct (Nat.ltb_spec so start'); cbn [app].
    + split; [constructor; [cbn; lia|]; constructor; [cbn; lia | exact J1]|]. split; [cbn [length]; lia|]. cbn [ordered]. split; [intros _; lia|]. split; [discriminate | exact J3].
    + split; [constructor; [cbn; lia | exact J1]|]. split; [cbn [length]; lia|]. cbn [ordered]. split; [discriminate | exact J3].
Qed.
Lemma encs_upper w : length (utf8_encs w) <= 4 * length w.
Proof. induction w as [|c w IH]; cbn [utf8_encs flat_map length]; [lia|]. rewrite app_length. fold (utf8_encs w). assert (length (utf8_enc c) <= 4) by (unfold utf8_enc; destruct (c <? 128)%N, (c <? 2048)%N, (c <? 65536)%N; cbn; lia). lia. Qed.
Lemma to_string_iff w b : convert_to_string w = Ok b -> b = utf8_encs w /\ forallb valid_cp w = true.
Proof. unfold convert_to_string. destruct (forallb valid_cp w); [|discriminate]. intros [= <-]. auto. Qed.
Lemma find_ck_ok map_r sentence trie w : convert_to_string w = Ok sentence -> (Z.of_nat (4 * length w + 1) < lim)%Z ->
  av_find_matches_ck map_r sentence trie = av_find_matches map_r sentence trie /\
  forall m ms, av_find_matches map_r sentence trie = Ok (m, ms) -> Forall (fun p => fst (snd p) <= 4 * length w /\ snd (snd p) <= 4 * length w) ms /\ length ms <= 4 * length w + 3 /\ ordered (length (from_utf32 w)) ms.
Proof.
  intros Hs HB. apply to_string_iff in Hs as [-> Hv]. pose proof (encs_upper w). pose proof (units_len w). unfold av_find_matches_ck, av_find_matches. cbv zeta. rewrite from_utf8_encs, <- from_utf32_valid by exact Hv. rewrite ckn_ok by lia. cbn [bind]. rewrite raw_ck_ok by lia. cbn [bind].
  destruct (raw_within (word_ids trie) (from_utf32 w) (length (from_utf32 w)) 0 0 (le_n 0)) as [R1 R2]. cbn [plus] in R1.
  destruct (resolve_ck_ok (utf8_encs w) (length (from_utf32 w)) (4 * length w) (raw_matches (word_ids trie) (from_utf32 w) (length (from_utf32 w)) 0 0) ltac:(lia) ltac:(lia) ltac:(lia) 0 map_r ltac:(lia)) as [E1 E2].
  { refine (Forall_impl _ _ R1). intros m [M1 M2]. split; lia. }
  split; [exact E1|]. intros m ms E. destruct (E2 m ms E) as (J1 & J2 & J3). repeat split; [exact J1 | lia | exact J3].
Qed.

(** the pieces of the first pass *)
Definition piece (L : nat) (p : split) : Prop := snd (sp_off p) <= 4 * L /\ length (sp_text p) <= 4 * L /\ (forall w, convert_from_string (sp_text p) = Ok w -> length w <= L) /\ (sp_tokens p = [] -> fst (sp_off p) <= snd (sp_off p)).
Lemma raw_splits_ck_ok text total l : (Z.of_nat (4 * length text) < lim)%Z -> length text <= total -> Forall (fun p => fst (snd p) <= 4 * length text /\ snd (snd p) <= 4 * length text) l -> ordered total l ->
  raw_splits_ck text l = raw_splits text l /\ forall r, raw_splits text l = Ok r -> Forall (piece (length text)) r /\ length r = length l.
Proof.
  intros HB Ht. induction l as [|[o [a b]] l IH]; intros Hl Ho; cbn [raw_splits_ck raw_splits]; [split; [reflexivity|]; intros r [= <-]; split; [constructor | reflexivity]|].
  inversion Hl as [|x y [Hx1 Hx2] Hr Exy]; subst. cbn [fst snd] in *. destruct Ho as [Ho1 Ho2]. destruct (substr_range text a b) as [w| | |] eqn:Ew; cbn [bind]; try (split; [reflexivity | discriminate]).
  destruct (convert_to_string w) as [v| | |] eqn:Ev; cbn [bind]; try (split; [reflexivity | discriminate]). destruct (to_string_iff _ _ Ev) as [-> Hv]. pose proof (substr_len _ _ _ _ Ew) as Hw. pose proof (encs_upper w). destruct (IH Hr Ho2) as [I1 I2].
  assert (Et : match o with Some i => n <- ckn (length (utf8_encs w)) ;; Ok [mkTok i (utf8_encs w) (0, n)] | None => Ok [] end = Ok (match o with Some i => [mkTok i (utf8_encs w) (0, length (utf8_encs w))] | None => [] end)) by (destruct o; [rewrite ckn_ok by lia|]; reflexivity).
  rewrite Et. cbn [bind]. rewrite I1. split; [reflexivity|]. destruct (raw_splits text l) as [rest| | |]; cbn [bind]; try discriminate. intros r [= <-]. destruct (I2 _ eq_refl) as [J1 J2]. split; [|cbn [length]; lia]. constructor; [|exact J1].
  split; [exact Hx2|]. split; [cbn [sp_text]; lia|]. cbn [sp_text sp_tokens sp_off fst snd]. split.
  - intros w' Hw'. rewrite (proj2 (convert_from_string_iff (utf8_encs w) w) (conj eq_refl Hv)) in Hw'. injection Hw' as <-. exact Hw.
  - intros Ht0. assert (o = None) by (destruct o; [discriminate | reflexivity]). destruct (Ho1 H0) as [|Hb]; [assumption|]. unfold substr_range in Ew. destruct (Nat.leb_spec a (length text)); [|discriminate]. lia.
Qed.
Lemma norm_splits_ck_ok text base l : (Z.of_nat (4 * length text + base) < lim)%Z -> Forall (fun p => fst (snd p) <= 4 * length text /\ snd (snd p) <= 4 * length text) l -> norm_splits_ck text base l = norm_splits text base l.
Proof.
  intros HB. induction l as [|[o [a b]] l IH]; intros Hl; cbn [norm_splits_ck norm_splits]; [reflexivity|]. inversion Hl as [|x y [Hx1 Hx2] Hr Exy]; subst. cbn [fst snd] in *.
  destruct (substr_range text a b) as [w| | |] eqn:Ew; cbn [bind]; try reflexivity. destruct (convert_to_string w) as [v| | |] eqn:Ev; cbn [bind]; try reflexivity. destruct (to_string_iff _ _ Ev) as [-> Hv]. pose proof (substr_len _ _ _ _ Ew) as Hw. pose proof (encs_upper w).
  rewrite (ckn_ok (a + base)) by lia. cbn [bind]. rewrite (ckn_ok (b + base)) by lia. cbn [bind].
  assert (Et : match o with Some i => n <- ckn (length (utf8_encs w)) ;; Ok [mkTok i (utf8_encs w) (0, n)] | None => Ok [] end = Ok (match o with Some i => [mkTok i (utf8_encs w) (0, length (utf8_encs w))] | None => [] end)) by (destruct o; [rewrite ckn_ok by lia|]; reflexivity).
  rewrite Et. cbn [bind]. rewrite IH by exact Hr. reflexivity.
Qed.

(** transform_range *)
Lemma last_rebase l : forall s, l <> [] -> pair_end (last (rebase_ranges s l) (0, 0)) = s + total l.
Proof.
  induction l as [|[f n] r IH]; intros s H; [congruence|]. cbn [rebase_ranges total snd]. destruct r as [|p r]; [cbn; lia|]. assert (Hne : rebase_ranges (s + n) (p :: r) <> []) by (destruct p; discriminate).
  destruct (rebase_ranges (s + n) (p :: r)) as [|x y] eqn:Er; [congruence|]. change (last ((s, n) :: x :: y) (0, 0)) with (last (x :: y) (0, 0)). rewrite <- Er. rewrite IH by discriminate. cbn [total]. lia.
Qed.
Lemma rebase_off_ck_ok r : forall prev cur, (Z.of_nat (snd cur + turns prev r) < lim)%Z ->
  rebase_offsets_ck prev cur r = Ok (rebase_offsets prev cur r) /\ Forall (fun o => snd o <= snd cur + turns prev r) (rebase_offsets prev cur r).
Proof.
  induction r as [|o r IH]; intros prev cur H; cbn [rebase_offsets_ck rebase_offsets turns] in *; [split; [reflexivity | constructor]|]. unfold same_pair in *. destruct ((fst prev =? fst o) && (snd prev =? snd o)) eqn:Eo.
  - assert (o = prev) by (symmetry; apply same_pair_eq; exact Eo). subst o. destruct (IH prev cur H) as [I1 I2]. rewrite I1. cbn [bind]. split; [reflexivity|]. constructor; [lia | exact I2].
  - rewrite ckn_ok by lia. cbn [bind]. destruct (IH o (snd cur, snd cur + 1)) as [I1 I2]; [cbn [snd]; lia|]. rewrite I1. cbn [bind]. split; [reflexivity|]. constructor; [cbn [snd]; lia|]. refine (Forall_impl _ _ I2). cbn [snd]. intros x Hx. lia.
Qed.
Lemma total_skip l : forall a b, a <= b -> total (skipn b l) <= total (skipn a l).
Proof.
  induction l as [|p l IH]; intros a b H; [rewrite !skipn_nil; lia|]. destruct b as [|b]; [replace a with 0 by lia; lia|]. destruct a as [|a]; [|cbn [skipn]; apply IH; lia].
  cbn [skipn]. specialize (IH 0 b ltac:(lia)). cbn [skipn total] in *. lia.
Qed.
Lemma total_bd T l : bd T l -> total l <= T.
Proof. intros [H _]. destruct l as [|p l]; [cbn; lia|]. cbn [bnd total] in *. lia. Qed.
Lemma erase_forall {A} (P : A -> Prop) l a b m : verase l a b = Ok m -> Forall P l -> Forall P m.
Proof. unfold verase. destruct (_ && _); [|discriminate]. intros [= <-] H. rewrite Forall_forall in *. intros x Hx. apply in_app_or in Hx as [Hx|Hx]; apply H; [rewrite <- (firstn_skipn a l) | rewrite <- (firstn_skipn b l)]; apply in_or_app; auto. Qed.
Lemma insert_forall {A} (P : A -> Prop) l a xs m : vinsert l a xs = Ok m -> Forall P l -> Forall P xs -> Forall P m.
Proof. unfold vinsert. destruct (_ <=? _); [|discriminate]. intros [= <-] H Hx. rewrite <- (firstn_skipn a l) in H. apply Forall_app in H as [H1 H2]. apply Forall_app. split; [exact H1|]. apply Forall_app. split; assumption. Qed.
Lemma transform_range_ck_ok ns a b sub T T1 V D : bd T (ns_ranges ns) -> bd T1 (ns_ranges sub) -> a <= b -> Forall (fun o => snd o <= V) (ns_offsets ns) -> changes (ns_offsets sub) <= D ->
  (Z.of_nat (T + T1) < lim)%Z -> (Z.of_nat (V + D) < lim)%Z ->
  transform_range_ck ns (a, b) sub = transform_range ns (a, b) sub /\ forall ns', transform_range ns (a, b) sub = Ok ns' -> bd (T + T1) (ns_ranges ns') /\ Forall (fun o => snd o <= V + D) (ns_offsets ns').
Proof.
  intros Hb H1 Hab HV HD HT HVD. unfold transform_range_ck, transform_range. cbv zeta. destruct (vat (ns_ranges ns) a) as [[start lim0]| | |] eqn:Ea; cbn [bind]; try (split; [reflexivity | discriminate]).
  match goal with |- context [bind ?k _] => destruct k as [rb| | |]; cbn [bind]; try (split; [reflexivity | discriminate]) end. cbn [fst].
  assert (Ha : nth_error (ns_ranges ns) a = Some (start, lim0)) by (unfold vat in Ea; destruct (nth_error (ns_ranges ns) a); [injection Ea as ->; reflexivity | discriminate]).
  destruct (cut _ _ _ Ha) as (x & y & El & Hx). pose proof (total_bd _ _ H1) as Ht1. destruct Hb as [Hb Hl]. pose proof (total_skip (ns_ranges ns) a b Hab) as Hsk.
  assert (Es : skipn a (ns_ranges ns) = (start, lim0) :: y) by (rewrite El, <- Hx, skipn_app, skipn_all, Nat.sub_diag; reflexivity).
  assert (Ef : firstn a (ns_ranges ns) = x) by (rewrite El, <- Hx, firstn_app, firstn_all, Nat.sub_diag; cbn [firstn]; apply app_nil_r).
  rewrite Es in Hsk. cbn [total snd] in Hsk. assert (Hs : start + lim0 + total y <= T) by (rewrite El in Hb; apply bnd_app in Hb as [_ [Hb _]]; cbn [fst snd] in Hb; lia).
  assert (E1 : match ns_ranges sub with [] => Ok [] | (_, n) :: r => rest <- refresh_ck (start, n) r ;; Ok ((start, n) :: rest) end = Ok (rebase_ranges start (ns_ranges sub))).
  { destruct (ns_ranges sub) as [|[f n] r]; [reflexivity|]. cbn [total snd] in Ht1. rewrite refresh_ck_ok by (cbn [fst snd]; lia). reflexivity. }
  rewrite E1. cbn [bind]. destruct H1 as [H1 Hl1].
  assert (Hlen : length (firstn a (ns_ranges ns)) + length (rebase_ranges start (ns_ranges sub)) + length (skipn b (ns_ranges ns)) <= T + T1) by (rewrite rebase_len, firstn_length, skipn_length; lia).
  rewrite ckn_ok by lia. cbn [bind].
  assert (E2 : match rebase_ranges start (ns_ranges sub), skipn b (ns_ranges ns) with [], _ :: _ => Undef OobIndex | _, _ => refresh_ck (last (rebase_ranges start (ns_ranges sub)) (0, 0)) (skipn b (ns_ranges ns)) end =
    match rebase_ranges start (ns_ranges sub), skipn b (ns_ranges ns) with [], _ :: _ => Undef OobIndex | _, _ => Ok (rebase_ranges (pair_end (last (rebase_ranges start (ns_ranges sub)) (0, 0))) (skipn b (ns_ranges ns))) end /\
    (rebase_ranges start (ns_ranges sub) = [] -> skipn b (ns_ranges ns) <> [] -> False \/ True)).
  { split; [|auto]. destruct (skipn b (ns_ranges ns)) as [|t tl] eqn:Et; [destruct (rebase_ranges start (ns_ranges sub)); reflexivity|]. destruct (ns_ranges sub) as [|q r] eqn:Eq; [reflexivity|].
    assert (Hp := last_rebase (q :: r) start ltac:(discriminate)). destruct (rebase_ranges start (q :: r)) as [|u v] eqn:Er; [reflexivity|]. apply refresh_ck_ok. change (fst (last (u :: v) (0, 0)) + snd (last (u :: v) (0, 0))) with (pair_end (last (u :: v) (0, 0))). rewrite Hp. lia. }
  destruct E2 as [E2 _]. rewrite E2. clear E2.
  set (new2 := rebase_ranges (pair_end (last (rebase_ranges start (ns_ranges sub)) (0, 0))) (skipn b (ns_ranges ns))).
  assert (B : match rebase_ranges start (ns_ranges sub), skipn b (ns_ranges ns) with [], _ :: _ => Undef OobIndex | _, _ => Ok new2 end = Ok new2 -> bd (T + T1) (firstn a (ns_ranges ns) ++ rebase_ranges start (ns_ranges sub) ++ new2)).
  { intros Hm. split; [|assert (length new2 = length (skipn b (ns_ranges ns))) by (unfold new2; apply rebase_len); rewrite !app_length; lia].
    assert (Hpe : skipn b (ns_ranges ns) = [] \/ pair_end (last (rebase_ranges start (ns_ranges sub)) (0, 0)) = start + total (ns_ranges sub)).
    { destruct (ns_ranges sub) as [|q r] eqn:Eq; [|right; apply last_rebase; discriminate]. destruct (skipn b (ns_ranges ns)); [left; reflexivity | discriminate]. }
    assert (Tn : total new2 = total (skipn b (ns_ranges ns))) by (unfold new2; apply total_rebase).
    apply bnd_app. rewrite total_app, total_rebase, Tn. split.
    - rewrite Ef. rewrite El in Hb. apply bnd_app in Hb as [Hb _]. cbn [total snd] in Hb. refine (bnd_mono _ _ _ _ _ Hb _). lia.
    - apply bnd_app. split; [apply bnd_rebase; rewrite Tn; lia|]. unfold new2. destruct Hpe as [Hz|Hz]; [rewrite Hz; exact I|]. apply bnd_rebase. rewrite Hz. lia. }
  destruct (match rebase_ranges start (ns_ranges sub), skipn b (ns_ranges ns) with [], _ :: _ => Undef OobIndex | _, _ => Ok new2 end) as [n2| | |] eqn:En; cbn [bind]; try (split; [reflexivity | discriminate]).
  assert (n2 = new2) by (destruct (rebase_ranges start (ns_ranges sub)), (skipn b (ns_ranges ns)); try discriminate; injection En as <-; reflexivity). subst n2. specialize (B eq_refl).
  assert (O : match ns_offsets sub with [] => Ok [] | o :: r => base <- vat (ns_offsets ns) start ;; rest <- rebase_offsets_ck o base r ;; Ok (base :: rest) end = match ns_offsets sub with [] => Ok [] | o :: r => base <- vat (ns_offsets ns) start ;; Ok (base :: rebase_offsets o base r) end /\
    forall no, match ns_offsets sub with [] => Ok [] | o :: r => base <- vat (ns_offsets ns) start ;; Ok (base :: rebase_offsets o base r) end = Ok no -> Forall (fun o => snd o <= V + D) no).
  { destruct (ns_offsets sub) as [|o r]; [split; [reflexivity|]; intros no [= <-]; constructor|]. cbn [changes] in HD. destruct (vat (ns_offsets ns) start) as [base| | |] eqn:Eb; cbn [bind]; try (split; [reflexivity | discriminate]).
    assert (Hbase : snd base <= V) by (unfold vat in Eb; destruct (nth_error (ns_offsets ns) start) as [z|] eqn:Ez; [|discriminate]; injection Eb as ->; rewrite Forall_forall in HV; apply HV; exact (nth_error_In _ _ Ez)).
    destruct (rebase_off_ck_ok r o base ltac:(lia)) as [I1 I2]. rewrite I1. cbn [bind]. split; [reflexivity|]. intros no [= <-]. constructor; [lia|]. refine (Forall_impl _ _ I2). intros z Hz. lia. }
  destruct O as [O1 O2]. rewrite O1. clear O1. match goal with |- context [bind ?k _] => destruct k as [no| | |] eqn:Eno; cbn [bind]; try (split; [reflexivity | discriminate]) end. specialize (O2 _ eq_refl). split; [reflexivity|].
  intros ns' H. apply bind_ok in H as (o1 & Ho1 & H). apply bind_ok in H as (o2 & Ho2 & H). injection H as <-. cbn [ns_ranges ns_offsets]. split; [exact B|].
  refine (insert_forall _ _ _ _ _ Ho2 (erase_forall _ _ _ _ _ Ho1 _) O2). refine (Forall_impl _ _ HV). intros z Hz. lia.
Qed.

(** the loop over the pieces *)
Lemma units_ge s : length s <= length (from_utf32 s).
Proof. unfold from_utf32. induction s as [|c s IH]; cbn [flat_map length]; [lia|]. rewrite app_length. assert (1 <= length (if valid_cp c then utf16_enc c else [0xFFFD%N])) by (destruct (valid_cp c); [unfold utf16_enc; destruct (c <? 65536)%N; cbn; lia | cbn; lia]). lia. Qed.
Lemma changes_new s : changes (ns_offsets (new_nstring s)) <= 2 * length s.
Proof.
  pose proof (units_len s). unfold new_nstring. pose proof (turns_numbered (from_utf32 s) (length (from_utf32 s)) 0 0 (0, 1)) as H1. destruct (ns_tables (from_utf32 s) (length (from_utf32 s)) 0 0) as [r o]. cbn [ns_offsets snd] in *.
  destruct o as [|x o]; cbn [changes]; [lia|]. cbn [turns] in H1. pose proof (turns_triangle x (0, 1) o). assert (same_pair x (0, 1) = same_pair (0, 1) x) by (unfold same_pair; destruct x; cbn [fst snd]; lia). rewrite H2 in H0. destruct (same_pair (0, 1) x); lia.
Qed.
Lemma offsets_new s : Forall (fun o => snd o <= 2 * length s) (ns_offsets (new_nstring s)).
Proof.
  pose proof (units_len s) as Hu. unfold new_nstring.
  assert (G : forall u todo i idx, Forall (fun o : nat * nat => snd o <= i + todo) (snd (ns_tables u todo i idx))).
  { intros u. induction todo as [|k IH]; intros i idx; cbn [ns_tables]; [constructor|]. specialize (IH (S i) (idx + length (utf8_of_cp (char32_at u i)))). destruct (ns_tables u k (S i) _) as [r o]. cbn [snd] in *. apply Forall_app. split.
    - apply Forall_forall. intros x Hx. apply repeat_spec in Hx. subst x. cbn [snd]. lia.
    - refine (Forall_impl _ _ IH). intros x Hx. lia. }
  specialize (G (from_utf32 s) (length (from_utf32 s)) 0 0). destruct (ns_tables (from_utf32 s) (length (from_utf32 s)) 0 0) as [r o]. cbn [ns_offsets snd] in *. refine (Forall_impl _ _ G). intros x Hx. lia.
Qed.
Lemma piece_ck_ok E : icu_expansion E -> regex_progress E -> forall norm L L1 T1 M w, piece_sizes norm L = (L1, T1, M) -> (Z.of_nat (length w) <= L)%Z -> (M < lim)%Z -> (8 * L < lim)%Z ->
  (match norm with Some f => normalize_ck E f (new_nstring w) | None => Ok (new_nstring w) end = match norm with Some f => normalize E f (new_nstring w) | None => Ok (new_nstring w) end) /\
  forall sub, match norm with Some f => normalize E f (new_nstring w) | None => Ok (new_nstring w) end = Ok sub -> bd (Z.to_nat T1) (ns_ranges sub) /\ (Z.of_nat (length (ns_text sub)) <= L1)%Z /\ changes (ns_offsets sub) <= 2 * length w.
Proof.
  intros HE HR norm L L1 T1 M w Es HL HM H8. destruct (fresh_ck_ok w ltac:(lia)) as (_ & F2 & F3). pose proof (changes_new w) as Hc. assert (F : bd (Z.to_nat (8 * L)) (ns_ranges (new_nstring w))) by (refine (bd_mono _ _ _ F2 _); lia).
  unfold piece_sizes in Es. destruct norm as [f|].
  - destruct (norm_ck_ok E HE HR f (new_nstring w) L (8 * L)%Z L1 T1 M ltac:(lia) F ltac:(rewrite F3; lia) Es HM) as [E1 E2]. split; [exact E1|]. intros sub Hsub. destruct (E2 _ Hsub) as [B1 B2]. split; [exact B1|]. split; [exact B2|]. apply (calm_normalize E f) in Hsub. lia.
  - revert Es. rewrite !pair_equal_spec. intros [[<- <-] <-]. split; [reflexivity|]. intros sub [= <-]. split; [exact F|]. split; [rewrite F3; exact HL | exact Hc].
Qed.
Lemma piece_sizes_up norm L L1 T1 M : piece_sizes norm L = (L1, T1, M) -> (0 <= L)%Z -> (0 <= L1 /\ 0 <= T1)%Z.
Proof. unfold piece_sizes. destruct norm as [f|]; [intros H HL; apply (sizes_up _ _ _ _ _ _ H); lia|]. rewrite !pair_equal_spec. intros [[<- <-] <-] H. lia. Qed.
Lemma normalize_splits_ck_ok E norm trie L L1 T1 M : icu_expansion E -> regex_progress E -> piece_sizes norm (Z.of_nat L) = (L1, T1, M) -> (M < lim)%Z -> (8 * Z.of_nat L < lim)%Z ->
  forall l ns map_r e T V, Forall (piece L) l -> bd T (ns_ranges ns) -> Forall (fun o => snd o <= V) (ns_offsets ns) ->
  (Z.of_nat e + Z.of_nat (length l) * (4 * Z.of_nat L + L1) + 4 * Z.of_nat L + 4 * L1 + 1 < lim)%Z -> (Z.of_nat T + Z.of_nat (length l) * T1 < lim)%Z -> (Z.of_nat V + Z.of_nat (length l) * (2 * Z.of_nat L) < lim)%Z ->
  normalize_splits_ck E norm trie ns map_r e l = normalize_splits E norm trie ns map_r e l.
Proof.
  intros HE HR Es HM H8. destruct (piece_sizes_up _ _ _ _ _ Es ltac:(lia)) as [HL1 HT1]. induction l as [|s l IH]; intros ns map_r e T V Hp Hb HV H1 H2 H3; cbn [normalize_splits_ck normalize_splits]; [reflexivity|].
  inversion Hp as [|x y (P1 & P2 & P3 & P4) Hpl Exy]; subst. cbn [length] in H1, H2, H3. destruct (sp_tokens s) as [|t ts] eqn:Et.
  - destruct (convert_from_string (sp_text s)) as [w| | |] eqn:Ew; cbn [bind]; try reflexivity. specialize (P3 w eq_refl). specialize (P4 eq_refl). destruct (fresh_ck_ok w ltac:(lia)) as (F1 & _ & _). rewrite F1. cbn [bind]. cbv zeta.
    destruct (piece_ck_ok E HE HR norm _ L1 T1 M w Es ltac:(lia) HM H8) as [E1 E2]. rewrite E1. clear E1. match goal with |- context [bind ?k _] => destruct k as [sub| | |]; cbn [bind]; try reflexivity end. destruct (E2 _ eq_refl) as (B1 & B2 & B3).
    rewrite (ckn_ok (e + snd (sp_off s))) by nia. cbn [bind].
    destruct (transform_range_ck_ok ns e (e + snd (sp_off s) - fst (sp_off s)) sub T (Z.to_nat T1) V (2 * L) Hb B1 ltac:(lia) HV ltac:(lia) ltac:(nia) ltac:(nia)) as [R1 R2]. rewrite R1. clear R1.
    destruct (transform_range ns _ sub) as [ns'| | |]; cbn [bind]; try reflexivity. destruct (R2 _ eq_refl) as [R3 R4]. destruct (convert_to_string (ns_text sub)) as [sentence| | |] eqn:Ese; cbn [bind]; try reflexivity.
    destruct (find_ck_ok map_r sentence trie (ns_text sub) Ese ltac:(nia)) as [G1 G2]. rewrite G1. destruct (av_find_matches map_r sentence trie) as [[m' ms]| | |]; cbn [bind]; try reflexivity. destruct (G2 _ _ eq_refl) as (G3 & _ & _).
    rewrite norm_splits_ck_ok by (first [exact G3 | nia]). destruct (norm_splits (ns_text sub) e ms) as [here| | |]; cbn [bind]; try reflexivity. rewrite ckn_ok by nia. cbn [bind].
    rewrite (IH ns' m' _ (T + Z.to_nat T1) (V + 2 * L) Hpl R3 R4) by nia. reflexivity.
  - cbv zeta. rewrite ckn_ok by nia. cbn [bind]. rewrite (IH ns map_r _ T V Hpl Hb HV) by nia. reflexivity.
Qed.

(** ** C146 *)
(** As long as the largest number given by the configuration, the length of the text and the number of pieces of the first pass fits an int, nothing overflows: extraction with its int arithmetic is the one of the other theorems. *)
Theorem C146_pieces : forall E av norm s k, icu_expansion E -> regex_progress E -> 1 <= k ->
  (forall m ms, av_find_matches (av_map_r av) (utf8_encs s) (av_trie_raw av) = Ok (m, ms) -> length ms <= k) ->
  (extract_largest norm (Z.of_nat k) (Z.of_nat (length s)) < 2 ^ 31)%Z -> extract_ck E av norm s = extract_and_normalize E av norm s.
Proof.
  intros E av norm s k HE HR Hk Hms H. change (2 ^ 31)%Z with lim in H. unfold extract_largest in H. destruct (piece_sizes norm (Z.of_nat (length s))) as [[L1 T1] M] eqn:Es. destruct (piece_sizes_up _ _ _ _ _ Es ltac:(lia)) as [HL1 HT1].
  assert (HkT : (0 <= Z.of_nat k * T1)%Z) by nia. assert (HkL : (0 <= Z.of_nat k * (4 * Z.of_nat (length s) + L1))%Z) by nia.
  unfold extract_ck, extract_and_normalize. destruct (fresh_ck_ok s ltac:(lia)) as (F1 & F2 & F3). rewrite F1. cbn [bind]. unfold new_pretok. rewrite F3. destruct (convert_to_string s) as [b| | |] eqn:Eb; cbn [bind]; try reflexivity.
  rewrite ckn_ok by lia. cbn [bind pt_norm]. rewrite F3, Eb. cbn [bind]. destruct (find_ck_ok (av_map_r av) b (av_trie_raw av) s Eb ltac:(nia)) as [G1 G2]. rewrite G1. destruct (to_string_iff _ _ Eb) as [-> Hv].
  destruct (av_find_matches (av_map_r av) (utf8_encs s) (av_trie_raw av)) as [[m1 ms]| | |]; cbn [bind]; try reflexivity. destruct (G2 _ _ eq_refl) as (G3 & _ & G4). specialize (Hms _ _ eq_refl).
  destruct (raw_splits_ck_ok s (length (from_utf32 s)) ms ltac:(nia) ltac:(pose proof (units_ge s); lia) G3 G4) as [R1 R2]. rewrite R1. destruct (raw_splits s ms) as [raw| | |]; cbn [bind]; try reflexivity. destruct (R2 _ eq_refl) as [R3 R4]. cbn [pt_splits]. cbv zeta.
  assert (HP : Forall (piece (length s)) (match raw with [] => [mkSplit (utf8_encs s) (0, length s) []] | _ => raw end) /\ length (match raw with [] => [mkSplit (utf8_encs s) (0, length s) []] | _ => raw end) <= k).
  { destruct raw as [|p raw]; [|split; [exact R3 | lia]]. split; [|cbn [length]; lia]. constructor; [|constructor]. pose proof (encs_upper s). unfold piece. cbn [sp_off sp_text sp_tokens fst snd]. repeat split; try lia.
    intros w Hw. rewrite (proj2 (convert_from_string_iff (utf8_encs s) s) (conj eq_refl Hv)) in Hw. injection Hw as <-. auto. }
  destruct HP as [HP1 HP2]. rewrite (normalize_splits_ck_ok E norm (av_trie_norm av) (length s) L1 T1 M HE HR Es ltac:(lia) ltac:(lia) _ _ m1 0 (8 * length s) (2 * length s) HP1 F2 (offsets_new s)) by nia. reflexivity.
Qed.
Print Assumptions C146_pieces.

(** Whatever the added tokens, the first pass cuts a text of n characters into at most 4 n + 3 pieces. *)
Theorem C146_always : forall E av norm s, icu_expansion E -> regex_progress E ->
  (extract_largest norm (4 * Z.of_nat (length s) + 3) (Z.of_nat (length s)) < 2 ^ 31)%Z -> extract_ck E av norm s = extract_and_normalize E av norm s.
Proof.
  intros E av norm s HE HR H. assert (H8 : (4 * Z.of_nat (length s) + 3 < lim)%Z /\ (8 * Z.of_nat (length s) < lim)%Z).
  { change (2 ^ 31)%Z with lim in H. unfold extract_largest in H. destruct (piece_sizes norm (Z.of_nat (length s))) as [[L1 T1] M] eqn:Es. destruct (piece_sizes_up _ _ _ _ _ Es ltac:(lia)). nia. }
  destruct (forallb valid_cp s) eqn:Ev.
  - apply (C146_pieces E av norm s (4 * length s + 3) HE HR ltac:(lia)); [|replace (Z.of_nat (4 * length s + 3)) with (4 * Z.of_nat (length s) + 3)%Z by lia; exact H].
    intros m ms Hf. refine (proj1 (proj2 (proj2 (find_ck_ok (av_map_r av) (utf8_encs s) (av_trie_raw av) s _ _) m ms Hf))); [unfold convert_to_string; rewrite Ev; reflexivity | lia].
  - unfold extract_ck, extract_and_normalize. destruct (fresh_ck_ok s ltac:(lia)) as (F1 & _ & F3). rewrite F1. cbn [bind]. unfold new_pretok. rewrite F3. unfold convert_to_string. rewrite Ev. reflexivity.
Qed.
Print Assumptions C146_always.

(** A text with none of the added tokens of the first pass is one piece; a BERT normalizer is then safe up to 2^22 characters. *)
Theorem C146_one_piece : forall E av norm s, icu_expansion E -> regex_progress E -> forallb valid_cp s = true -> no_added_token (av_trie_raw av) (flat_map utf16_enc s) ->
  (extract_largest norm 1 (Z.of_nat (length s)) < 2 ^ 31)%Z -> extract_ck E av norm s = extract_and_normalize E av norm s.
Proof.
  intros E av norm s HE HR Hv Hn H. apply (C146_pieces E av norm s 1 HE HR (le_n 1)); [|exact H]. intros m ms Hf. rewrite find_none in Hf by (rewrite from_utf8_encs by exact Hv; exact Hn). injection Hf as <- <-. match goal with |- length (if ?b then _ else _) <= _ => destruct b end; cbn; lia.
Qed.
Print Assumptions C146_one_piece.
Theorem C146_bert : forall E av c h st lo s, icu_expansion E -> regex_progress E -> forallb valid_cp s = true -> no_added_token (av_trie_raw av) (flat_map utf16_enc s) -> (Z.of_nat (length s) <= 2 ^ 22)%Z ->
  extract_ck E av (Some (NBert c h st lo)) s = extract_and_normalize E av (Some (NBert c h st lo)) s.
Proof.
  intros E av c h st lo s HE HR Hv Hn H. apply C146_one_piece; try assumption. unfold extract_largest, piece_sizes. cbn [sizes]. change (2 ^ 22)%Z with 4194304%Z in H. change (2 ^ 31)%Z with lim. lia.
Qed.
Print Assumptions C146_bert.

(** Without the bound it is false: 2^28 supplementary characters overflow the tables, with no added token, no normalizer and every configuration, while without the range checks a piece is returned. *)
Theorem C146_emoji_refuted : forall n, (2 ^ 28 <= Z.of_nat n)%Z -> forall E, (forall av norm, extract_ck E av norm (repeat 0x1F600%N n) = Undef IntOverflow) /\
  exists r, extract_and_normalize E (mkAv [] [] [] [] [] [] []) None (repeat 0x1F600%N n) = Ok r.
Proof.
  intros n H E. split.
  - intros av norm. unfold extract_ck. rewrite (proj2 (C145_exact_on_emoji n) H). reflexivity.
  - assert (Hv : forallb valid_cp (repeat 0x1F600%N n) = true) by (apply forallb_forall; intros x Hx; apply repeat_spec in Hx; subst x; reflexivity).
    assert (Hne : repeat 0x1F600%N n <> []) by (destruct n; [change (2 ^ 28)%Z with 268435456%Z in H; lia | discriminate]).
    destruct (extract_none E (mkAv [] [] [] [] [] [] []) None (repeat 0x1F600%N n) (repeat 0x1F600%N n) Hne Hv) as [junk HX]; try assumption; try (intros ? ? ? ? ? []).
    + unfold run_norm, set_text, new_nstring. destruct (ns_tables _ _ _ _). reflexivity.
    + eexists. exact HX.
Qed.
Print Assumptions C146_emoji_refuted.

(** Test data that satisfies the hypotheses: added tokens of both passes, lstrip and rstrip, a BERT normalizer; the text is cut into five pieces. *)
Definition int_av : added_vocab := mkAv [] [] [str "[X]"] [(str "[X]", 7%Z); (str "new", 8%Z)] [(7%Z, mkAt 7 (str "[X]") false true true false true); (8%Z, mkAt 8 (str "new") true false false true false)] [(str "new", 8%Z)] [(str "[X]", 7%Z)].
Definition int_text : wstr := (str "A new " ++ str "[X] " ++ [0xC9; 0x4E2D]%N ++ str " [X] new")%list.
Theorem C146_case : (extract_largest (Some (NBert true true true true)) (4 * Z.of_nat (length int_text) + 3) (Z.of_nat (length int_text)) < 2 ^ 31)%Z /\
  extract_ck test_env int_av (Some (NBert true true true true)) int_text = extract_and_normalize test_env int_av (Some (NBert true true true true)) int_text /\
  exists m p, extract_ck test_env int_av (Some (NBert true true true true)) int_text = Ok (m, p) /\ length (pt_splits p) = 7.
Proof. split; [vm_compute; reflexivity|]. split; [vm_compute; reflexivity|]. eexists _, _. split; vm_compute; reflexivity. Qed.
Print Assumptions C146_case.
