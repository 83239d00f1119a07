From Verif Require Import Base BaseFacts Unicode UnicodeProofs Common Normalizer NormSpec.
From Coq Require Import ZifyBool ZifyNat ZifyN.
From Coq Require Sorted.

(** ** Tables made of blocks: one (span, number of bytes) per entry *)
Definition blocks := list ((nat * nat) * nat).
Fixpoint tab_ranges (a : nat) (bl : blocks) : list (nat * nat) :=
  match bl with [] => [] | (_, n) :: r => (a, n) :: tab_ranges (a + n) r end.
Definition tab_offsets (bl : blocks) : list (nat * nat) := flat_map (fun p => repeat (fst p) (snd p)) bl.
Fixpoint size (bl : blocks) : nat := match bl with [] => 0 | (_, n) :: r => n + size r end.

Record Packed (ns : nstring) (bl : blocks) : Prop := {
  pk_ranges : ns_ranges ns = tab_ranges 0 bl;
  pk_offsets : ns_offsets ns = tab_offsets bl;
  pk_pos : Forall (fun p => 0 < snd p) bl }.

Lemma tab_ranges_length a bl : length (tab_ranges a bl) = length bl.
Proof. revert a; induction bl as [|[o n] bl IH]; intros a; cbn; [reflexivity | rewrite IH; reflexivity]. Qed.
Lemma tab_ranges_app a b1 b2 : tab_ranges a (b1 ++ b2) = tab_ranges a b1 ++ tab_ranges (a + size b1) b2.
Proof.
  revert a; induction b1 as [|[o n] b1 IH]; intros a; [cbn; rewrite Nat.add_0_r; reflexivity|].
  cbn [app tab_ranges size]. rewrite IH. replace (a + n + size b1) with (a + (n + size b1)) by lia. reflexivity.
Qed.
Lemma tab_offsets_app b1 b2 : tab_offsets (b1 ++ b2) = tab_offsets b1 ++ tab_offsets b2.
Proof. unfold tab_offsets. apply flat_map_app. Qed.
Lemma tab_offsets_length bl : length (tab_offsets bl) = size bl.
Proof. induction bl as [|[o n] bl IH]; cbn; [reflexivity|]. rewrite app_length, repeat_length. fold (tab_offsets bl). rewrite IH. reflexivity. Qed.
Lemma size_app b1 b2 : size (b1 ++ b2) = size b1 + size b2.
Proof. induction b1 as [|[o n] b1 IH]; cbn; [reflexivity|]. rewrite IH. lia. Qed.

Lemma blocks_split (bl : blocks) i : i < length bl -> exists A o n B, bl = A ++ (o, n) :: B /\ length A = i.
Proof.
  intros H. destruct (nth_error bl i) as [[o n]|] eqn:E; [|apply nth_error_None in E; lia].
  apply nth_error_split in E as (A & B & -> & Hl). exists A, o, n, B. auto.
Qed.

Lemma packed_origin ns bl i : Packed ns bl -> origin ns i = option_map fst (nth_error bl i).
Proof.
  intros [Hr Ho Hp]. unfold origin. rewrite Hr, Ho. destruct (Nat.lt_ge_cases i (length bl)) as [H|H].
  - destruct (blocks_split bl i H) as (A & o & n & B & -> & Hl). rewrite tab_ranges_app. rewrite !nth_error_app2 by (rewrite ?tab_ranges_length; lia).
    rewrite tab_ranges_length, Hl, Nat.sub_diag. cbn. rewrite tab_offsets_app, nth_error_app2 by (rewrite tab_offsets_length; lia).
    rewrite tab_offsets_length, Nat.sub_diag. cbn. apply Forall_app in Hp as [_ Hp]. inversion Hp as [|? ? Hn _]; subst. cbn in Hn.
    destruct n; [lia | reflexivity].
  - rewrite (proj2 (nth_error_None (tab_ranges 0 bl) i)) by (rewrite tab_ranges_length; lia).
    rewrite (proj2 (nth_error_None bl i)) by lia. reflexivity.
Qed.

Lemma rebase_tab a l : rebase_ranges a l = tab_ranges a (map (fun p => ((0, 0), snd p)) l).
Proof. revert a; induction l as [|[x n] l IH]; intros a; cbn; [reflexivity | rewrite IH; reflexivity]. Qed.

Lemma tab_ranges_ext a b1 b2 : map snd b1 = map snd b2 -> tab_ranges a b1 = tab_ranges a b2.
Proof.
  revert a b2; induction b1 as [|[o n] b1 IH]; intros a [|[o' n'] b2] H; cbn in *; try discriminate; [reflexivity|].
  inversion H; subst. f_equal. apply IH; assumption.
Qed.

Lemma rebase_tab_ranges a b bl : rebase_ranges a (tab_ranges b bl) = tab_ranges a bl.
Proof. revert a b; induction bl as [|[o n] bl IH]; intros a b; cbn; [reflexivity | rewrite IH; reflexivity]. Qed.

Lemma verase_mid {A} (x y z : list A) : verase (x ++ y ++ z) (length x) (length x + length y) = Ok (x ++ z).
Proof.
  unfold verase. rewrite !app_length. replace (length x <=? length x + length y) with true by lia.
  replace (length x + length y <=? length x + (length y + length z)) with true by lia. cbn [andb]. f_equal.
  rewrite firstn_app, firstn_all, Nat.sub_diag. cbn [firstn]. rewrite app_nil_r. f_equal.
  rewrite app_assoc, skipn_app, <- app_length, skipn_all, Nat.sub_diag. reflexivity.
Qed.

Lemma vinsert_mid {A} (x z y : list A) : vinsert (x ++ z) (length x) y = Ok (x ++ y ++ z).
Proof.
  unfold vinsert. rewrite app_length. replace (length x <=? length x + length z) with true by lia. f_equal.
  rewrite firstn_app, firstn_all, Nat.sub_diag. cbn [firstn]. rewrite app_nil_r. f_equal. f_equal.
  rewrite skipn_app, skipn_all, Nat.sub_diag. reflexivity.
Qed.

Lemma refresh_mid x y z (j p : nat) : length x = j -> j = S p -> nth p x (0, 0) = y ->
  refresh_from j (x ++ z) = x ++ rebase_ranges (pair_end y) z.
Proof.
  intros Hx -> Hy. unfold refresh_from. rewrite firstn_app, <- Hx, firstn_all, Nat.sub_diag. cbn [firstn]. rewrite app_nil_r. f_equal.
  rewrite app_nth1 by lia. rewrite Hy. f_equal. rewrite skipn_app, skipn_all, Nat.sub_diag. reflexivity.
Qed.

(** ** transform on packed tables *)
Section Transform.
Context (ns : nstring) (A B : blocks) (o : nat * nat) (n : nat) (HP : Packed ns (A ++ (o, n) :: B)).
Let i := length A.

Lemma pk_here : vat (ns_ranges ns) i = Ok (size A, n).
Proof.
  rewrite (pk_ranges _ _ HP). unfold vat. rewrite tab_ranges_app, nth_error_app2 by (rewrite tab_ranges_length; unfold i; lia).
  rewrite tab_ranges_length. unfold i. rewrite Nat.sub_diag. reflexivity.
Qed.
Lemma pk_n : 0 < n.
Proof. pose proof (pk_pos _ _ HP) as H. apply Forall_app in H as [_ H]. inversion H; assumption. Qed.
Lemma pk_off : vat (ns_offsets ns) (size A) = Ok o.
Proof.
  rewrite (pk_offsets _ _ HP). unfold vat. rewrite tab_offsets_app, nth_error_app2 by (rewrite tab_offsets_length; lia).
  rewrite tab_offsets_length, Nat.sub_diag. cbn. pose proof pk_n. destruct n; [lia | reflexivity].
Qed.
Lemma pk_er : verase (ns_ranges ns) i (i + 1) = Ok (tab_ranges 0 A ++ tab_ranges (size A + n) B).
Proof.
  rewrite (pk_ranges _ _ HP), tab_ranges_app. cbn [tab_ranges Nat.add]. unfold i. rewrite <- (tab_ranges_length 0 A).
  change ((size A, n) :: tab_ranges (size A + n) B) with ([(size A, n)] ++ tab_ranges (size A + n) B).
  exact (verase_mid (tab_ranges 0 A) [(size A, n)] _).
Qed.
Lemma pk_in x : vinsert (tab_ranges 0 A ++ tab_ranges (size A + n) B) i x = Ok (tab_ranges 0 A ++ x ++ tab_ranges (size A + n) B).
Proof. unfold i. rewrite <- (tab_ranges_length 0 A). apply vinsert_mid. Qed.
Lemma pk_ins x : vinsert (ns_offsets ns) (size A) x = Ok (tab_offsets A ++ x ++ repeat o n ++ tab_offsets B).
Proof.
  rewrite (pk_offsets _ _ HP), tab_offsets_app. cbn [tab_offsets flat_map fst snd]. rewrite <- (tab_offsets_length A). apply vinsert_mid.
Qed.

Lemma packed_parts : Forall (fun p : nat * nat * nat => 0 < snd p) A /\ Forall (fun p : nat * nat * nat => 0 < snd p) B.
Proof. pose proof (pk_pos _ _ HP) as H. apply Forall_app in H as [HA H]. inversion H; auto. Qed.

Lemma repeat_snoc {X} (x : X) k : repeat x k ++ [x] = repeat x (S k).
Proof. induction k as [|k IH]; [reflexivity|]. cbn. rewrite IH. reflexivity. Qed.

Lemma transform_pad : exists ns', transform ns i OpPad = Ok ns' /\ ns_text ns' = ns_text ns /\ Packed ns' (A ++ (o, 1) :: (o, n) :: (o, 1) :: B).
Proof.
  destruct packed_parts as [HA HB].
  unfold transform. rewrite pk_here. cbn [bind]. rewrite pk_off. cbn [bind]. rewrite pk_ins. cbn [bind]. rewrite pk_er. cbn [bind].
  rewrite pk_in. cbn [bind]. eexists; split; [reflexivity|]. split; [reflexivity|]. constructor; cbn [ns_ranges ns_offsets].
  - rewrite app_assoc. rewrite (refresh_mid _ (size A + n + 1, 1) _ _ (i + 2)).
    + rewrite rebase_tab_ranges. rewrite tab_ranges_app. cbn [tab_ranges Nat.add pair_end fst snd]. rewrite <- app_assoc. cbn [app].
      replace (size A + 1 + n) with (size A + n + 1) by lia. reflexivity.
    + rewrite app_length, tab_ranges_length. cbn. unfold i. lia.
    + lia.
    + rewrite app_nth2 by (rewrite tab_ranges_length; unfold i; lia). rewrite tab_ranges_length. unfold i.
      replace (length A + 2 - length A) with 2 by lia. reflexivity.
  - rewrite tab_offsets_app. f_equal.
    change (o :: o :: repeat o n ++ tab_offsets B = o :: repeat o n ++ [o] ++ tab_offsets B). f_equal.
    rewrite app_assoc, repeat_snoc. reflexivity.
  - apply Forall_app. split; [exact HA|]. pose proof pk_n. repeat constructor; cbn; try lia. exact HB.
Qed.

Lemma transform_add k : 0 < k -> exists ns', transform ns i (OpAdd k) = Ok ns' /\ ns_text ns' = ns_text ns /\ Packed ns' (A ++ (o, k) :: (o, n) :: B).
Proof.
  destruct packed_parts as [HA HB]. intros Hk.
  unfold transform. rewrite pk_here. cbn [bind]. rewrite pk_er. cbn [bind]. rewrite pk_in. cbn [bind]. rewrite pk_off. cbn [bind]. rewrite pk_ins. cbn [bind].
  eexists; split; [reflexivity|]. split; [reflexivity|]. constructor; cbn [ns_ranges ns_offsets].
  - rewrite app_assoc. rewrite (refresh_mid _ (size A + k, n) _ _ (i + 1)).
    + rewrite rebase_tab_ranges. rewrite tab_ranges_app. cbn [tab_ranges Nat.add pair_end fst snd]. rewrite <- app_assoc. reflexivity.
    + rewrite app_length, tab_ranges_length. cbn. unfold i. lia.
    + lia.
    + rewrite app_nth2 by (rewrite tab_ranges_length; unfold i; lia). rewrite tab_ranges_length. unfold i.
      replace (length A + 1 - length A) with 1 by lia. reflexivity.
  - rewrite tab_offsets_app. reflexivity.
  - apply Forall_app. split; [exact HA|]. pose proof pk_n. constructor; [cbn; lia|]. constructor; [cbn; lia | exact HB].
Qed.
End Transform.

(** ** The fresh string *)
Fixpoint unit_blocks (u : ustr) (todo i : nat) : blocks :=
  match todo with O => [] | S k => ((i, S i), length (utf8_of_cp (char32_at u i))) :: unit_blocks u k (S i) end.

Lemma ns_tables_blocks u todo : forall i idx, ns_tables u todo i idx = (tab_ranges idx (unit_blocks u todo i), tab_offsets (unit_blocks u todo i)).
Proof.
  induction todo as [|k IH]; intros i idx; [reflexivity|]. cbn [ns_tables unit_blocks tab_ranges]. rewrite IH. reflexivity.
Qed.

Lemma utf8_enc_pos c : 0 < length (utf8_enc c).
Proof. unfold utf8_enc. repeat match goal with |- context [if ?b then _ else _] => destruct b end; cbn; lia. Qed.
Lemma utf8_of_cp_pos c : 0 < length (utf8_of_cp c).
Proof. unfold utf8_of_cp. destruct (is_surrogate c); apply utf8_enc_pos. Qed.

Lemma unit_blocks_length u todo i : length (unit_blocks u todo i) = todo.
Proof. revert i; induction todo as [|k IH]; intros i; cbn; [reflexivity | rewrite IH; reflexivity]. Qed.
Lemma unit_blocks_nth u todo : forall i j, j < todo -> nth_error (unit_blocks u todo i) j = Some ((i + j, S (i + j)), length (utf8_of_cp (char32_at u (i + j)))).
Proof.
  induction todo as [|k IH]; intros i j H; [lia|]. cbn. destruct j as [|j]; cbn; [rewrite Nat.add_0_r; reflexivity|].
  rewrite IH by lia. replace (i + S j) with (S i + j) by lia. reflexivity.
Qed.

Lemma unit_blocks_pos u todo : forall i, Forall (fun p => 0 < snd p) (unit_blocks u todo i).
Proof. induction todo as [|k IH]; intros i; cbn [unit_blocks]; constructor; [apply utf8_of_cp_pos | apply IH]. Qed.

Lemma fresh_packed s : Packed (new_nstring s) (unit_blocks (from_utf32 s) (length (from_utf32 s)) 0) /\ ns_text (new_nstring s) = s.
Proof.
  unfold new_nstring. rewrite ns_tables_blocks. split; [|reflexivity]. constructor; [reflexivity | reflexivity|].
  apply unit_blocks_pos.
Qed.

Lemma fresh_length s : length (ns_ranges (new_nstring s)) = length (from_utf32 s).
Proof. destruct (fresh_packed s) as [[-> _ _] _]. rewrite tab_ranges_length. apply unit_blocks_length. Qed.

Lemma utf16_len_ge s : length s <= length (from_utf32 s).
Proof.
  induction s as [|c s IH]; [cbn; lia|]. cbn [from_utf32 flat_map length]. fold (from_utf32 s). rewrite app_length.
  assert (1 <= length (if valid_cp c then utf16_enc c else [0xFFFD%N])); [|lia].
  destruct (valid_cp c); [|cbn; lia]. unfold utf16_enc. destruct (c <? 65536)%N; cbn; lia.
Qed.
Lemma bmp_len s : bmp s -> length (from_utf32 s) = length s.
Proof.
  induction 1 as [|c s Hc _ IH]; [reflexivity|]. cbn [from_utf32 flat_map length]. fold (from_utf32 s). rewrite app_length, IH.
  assert (length (if valid_cp c then utf16_enc c else [0xFFFD%N]) = 1) as ->; [|lia].
  destruct (valid_cp c); [|reflexivity]. unfold utf16_enc. destruct (N.ltb_spec c 65536); [reflexivity | lia].
Qed.

Lemma fresh_origin s i : i < length (from_utf32 s) -> origin (new_nstring s) i = unit_span i.
Proof.
  intros H. destruct (fresh_packed s) as [HP _]. rewrite (packed_origin _ _ i HP), unit_blocks_nth by exact H. reflexivity.
Qed.

(** ** Chinese characters *)
Lemma apply_changes_spec l : forall done, apply_changes (done ++ l) (length done) (chinese_changes l) = Ok (done ++ spaced is_chinese_char l).
Proof.
  induction l as [|c l IH]; intros done; cbn [chinese_changes spaced]; [reflexivity|].
  assert (Hset : forall x y r, vset (done ++ x :: r) (length done) y = Ok (done ++ y :: r)).
  { intros x y r. rewrite vset_ok by (rewrite app_length; cbn; lia). f_equal. rewrite firstn_app, firstn_all, Nat.sub_diag. cbn [firstn]. rewrite app_nil_r.
    f_equal. f_equal. rewrite skipn_app. replace (S (length done) - length done) with 1 by lia. rewrite skipn_all2 by lia. reflexivity. }
  assert (Hins : forall (d : wstr) x r, firstn (length d) (d ++ r) ++ x :: skipn (length d) (d ++ r) = d ++ x :: r).
  { intros d x r. rewrite firstn_app, firstn_all, Nat.sub_diag, skipn_app, skipn_all, Nat.sub_diag. cbn. rewrite app_nil_r. reflexivity. }
  assert (Hle : forall (d r : wstr), (length d <=? length (d ++ r)) = true) by (intros; rewrite app_length; lia).
  destruct (is_chinese_char c).
  - cbn [app apply_changes]. change (0 <? 0) with false. change (0 <? 1) with true. cbv iota. rewrite Hset. cbn [bind].
    replace (done ++ 32%N :: l) with ((done ++ [32%N]) ++ l) by (rewrite <- app_assoc; reflexivity).
    replace (S (length done)) with (length (done ++ [32%N])) by (rewrite app_length; cbn; lia). rewrite Hle, Hins. cbn [bind].
    replace ((done ++ [32%N]) ++ c :: l) with ((done ++ [32%N; c]) ++ l) by (rewrite <- !app_assoc; reflexivity).
    replace (S (length (done ++ [32%N]))) with (length (done ++ [32%N; c])) by (rewrite !app_length; cbn; lia). rewrite Hle, Hins. cbn [bind].
    replace ((done ++ [32%N; c]) ++ 32%N :: l) with ((done ++ [32%N; c; 32%N]) ++ l) by (rewrite <- !app_assoc; reflexivity).
    replace (S (length (done ++ [32%N; c]))) with (length (done ++ [32%N; c; 32%N])) by (rewrite !app_length; cbn; lia).
    rewrite IH, <- app_assoc. reflexivity.
  - cbn [app apply_changes]. change (0 <? 0) with false. change (0 <? 1) with true. cbv iota. rewrite Hset. cbn [bind].
    replace (done ++ c :: l) with ((done ++ [c]) ++ l) by (rewrite <- app_assoc; reflexivity).
    replace (S (length done)) with (length (done ++ [c])) by (rewrite app_length; cbn; lia). rewrite IH, <- app_assoc. reflexivity.
Qed.

(** blocks after padding; [l] the remaining characters, [B] the remaining blocks (at least as many) *)
Fixpoint pad_blocks (l : wstr) (B : blocks) : blocks :=
  match l, B with
  | c :: r, (o, n) :: B' => (if is_chinese_char c then [(o, 1); (o, n); (o, 1)] else [(o, n)]) ++ pad_blocks r B'
  | _, _ => B
  end.

Lemma apply_pad_spec l : forall ns A B i multi, Packed ns (A ++ B) -> length l <= length B -> length A = i + multi ->
  exists ns', apply_pad ns (chinese_ids l i) multi = Ok ns' /\ ns_text ns' = ns_text ns /\ Packed ns' (A ++ pad_blocks l B).
Proof.
  induction l as [|c l IH]; intros ns A B i multi HP Hl HA.
  - exists ns. split; [reflexivity|]. split; [reflexivity | exact HP].
  - destruct B as [|[o n] B]; [cbn in Hl; lia|]. cbn [length] in Hl. cbn [chinese_ids pad_blocks]. destruct (is_chinese_char c).
    + cbn [apply_pad]. rewrite <- HA. destruct (transform_pad ns A B o n HP) as (ns1 & -> & Ht & HP1). cbn [bind].
      destruct (IH ns1 (A ++ [(o, 1); (o, n); (o, 1)]) B (S i) (multi + 2)) as (ns2 & H1 & H2 & H3).
      * rewrite <- app_assoc. exact HP1.
      * lia.
      * rewrite app_length. cbn. lia.
      * exists ns2. split; [exact H1|]. split; [congruence|]. rewrite <- app_assoc in H3. exact H3.
    + destruct (IH ns (A ++ [(o, n)]) B (S i) multi) as (ns2 & H1 & H2 & H3).
      * rewrite <- app_assoc. exact HP.
      * lia.
      * rewrite app_length. cbn. lia.
      * exists ns2. split; [exact H1|]. split; [exact H2|]. rewrite <- app_assoc in H3. exact H3.
Qed.

Lemma chinese_spec ns bl : Packed ns bl -> length (ns_text ns) <= length bl ->
  exists ns', do_handle_chinese_chars ns = Ok ns' /\ ns_text ns' = spaced is_chinese_char (ns_text ns) /\ Packed ns' (pad_blocks (ns_text ns) bl).
Proof.
  intros HP Hl. unfold do_handle_chinese_chars.
  destruct (apply_pad_spec (ns_text ns) ns [] bl 0 0 HP Hl eq_refl) as (ns1 & -> & Ht & HP1). cbn [bind]. rewrite Ht.
  pose proof (apply_changes_spec (ns_text ns) []) as Hc. cbn [app length] in Hc. rewrite Hc. cbn [bind].
  eexists; split; [reflexivity|]. split; [reflexivity|]. destruct HP1. constructor; assumption.
Qed.

(** what each survivor of the padding maps to *)
Lemma pad_blocks_src l : forall B k, length l = length B -> (forall j, j < length B -> option_map fst (nth_error B j) = unit_span (k + j)) ->
  map Some (map fst (pad_blocks l B)) = map unit_span (spaced_src is_chinese_char l k).
Proof.
  induction l as [|c l IH]; intros [|[o n] B] k Hl Hs; cbn in Hl; try lia; [reflexivity|].
  pose proof (Hs 0 ltac:(cbn; lia)) as H0. cbn in H0. rewrite Nat.add_0_r in H0.
  assert (HI : map Some (map fst (pad_blocks l B)) = map unit_span (spaced_src is_chinese_char l (S k))).
  { apply IH; [lia|]. intros j Hj. specialize (Hs (S j) ltac:(cbn; lia)). cbn in Hs. rewrite Hs. f_equal. lia. }
  cbn [pad_blocks spaced_src]. destruct (is_chinese_char c); cbn [app map fst]; rewrite HI, H0; reflexivity.
Qed.

Lemma pad_blocks_length l : forall B, length l = length B -> length (pad_blocks l B) = length (spaced is_chinese_char l).
Proof.
  induction l as [|c l IH]; intros [|[o n] B] H; cbn in H; try lia; [reflexivity|]. cbn [pad_blocks spaced].
  rewrite !app_length, IH by lia. destruct (is_chinese_char c); reflexivity.
Qed.

Lemma packed_origins ns bl : Packed ns bl -> origins ns (length bl) = map Some (map fst bl).
Proof.
  intros HP. unfold origins. apply list_ext. intros i. destruct (Nat.lt_ge_cases i (length bl)) as [H|H].
  - rewrite !nth_error_map. rewrite (nth_error_nth' _ 0) by (rewrite seq_length; lia). rewrite seq_nth by lia. cbn.
    rewrite (packed_origin _ _ _ HP). destruct (nth_error bl i) eqn:E; [reflexivity | apply nth_error_None in E; lia].
  - rewrite (proj2 (nth_error_None _ _)) by (rewrite map_length, seq_length; lia). symmetry. apply nth_error_None. rewrite !map_length. lia.
Qed.

Lemma fresh_origins s n : n <= length (from_utf32 s) -> origins (new_nstring s) n = map unit_span (seq 0 n).
Proof.
  intros H. unfold origins. apply map_ext_in. intros i Hi. apply in_seq in Hi. apply fresh_origin. lia.
Qed.

(** ** Growing and shrinking: the byte table is untouched *)
Lemma verase1 {A} (l : list A) i : i < length l -> verase l i (i + 1) = Ok (firstn i l ++ skipn (S i) l).
Proof. intros H. unfold verase. replace (i <=? i + 1) with true by lia. replace (i + 1 <=? length l) with true by lia. cbn [andb]. rewrite Nat.add_1_r. reflexivity. Qed.

Lemma split_at {A} (l : list A) i x : nth_error l i = Some x -> exists a b, l = a ++ x :: b /\ length a = i.
Proof. intros H. apply nth_error_split in H as (a & b & -> & <-). eauto. Qed.

Lemma transform_grow ns i start limit : nth_error (ns_ranges ns) i = Some (start, limit) ->
  transform ns i OpGrow = Ok (mkNs (ns_text ns) (firstn i (ns_ranges ns) ++ (start, 1) :: (start + 1, 1) :: skipn (S i) (ns_ranges ns)) (ns_offsets ns)).
Proof.
  intros H. unfold transform, vat. rewrite H. cbn [bind]. apply split_at in H as (a & b & -> & <-).
  change ((start, limit) :: b) with ([(start, limit)] ++ b). pose proof (verase_mid a [(start, limit)] b) as Hv. cbn [length] in Hv. rewrite Hv. cbn [bind].
  rewrite vinsert_mid. cbn [bind]. f_equal. f_equal. cbn [app]. rewrite firstn_app, firstn_all, Nat.sub_diag. cbn [firstn]. rewrite app_nil_r. f_equal.
  rewrite skipn_app, skipn_all2 by lia. replace (S (length a) - length a) with 1 by lia. reflexivity.
Qed.
Lemma transform_shrink ns i p : nth_error (ns_ranges ns) i = Some p ->
  transform ns i OpShrink = Ok (mkNs (ns_text ns) (firstn i (ns_ranges ns) ++ skipn (S i) (ns_ranges ns)) (ns_offsets ns)).
Proof.
  intros H. unfold transform, vat. rewrite H. destruct p as [start limit]. cbn [bind]. rewrite verase1; [reflexivity|]. apply nth_error_Some. congruence.
Qed.
Lemma transform_oob ns i op : length (ns_ranges ns) <= i -> transform ns i op = Undef OobIndex.
Proof. intros H. unfold transform, vat. rewrite (proj2 (nth_error_None _ _) H). reflexivity. Qed.

Lemma grow_ids_bound fuel old new : forall oi ni, Forall (fun i => oi <= i < length old) (grow_ids fuel old new oi ni).
Proof.
  induction fuel as [|f IH]; intros oi ni; cbn [grow_ids]; [constructor|].
  destruct (nth_error old oi) eqn:E1; [|constructor]. destruct (nth_error new ni); [|constructor].
  assert (oi < length old) by (apply nth_error_Some; congruence).
  assert (HI : forall n', Forall (fun i => oi <= i < length old) (grow_ids f old new (S oi) n')).
  { intros n'. eapply Forall_impl; [|apply IH]. cbn. lia. }
  destruct (_ =? _)%N; [apply HI | constructor; [lia | apply HI]].
Qed.

Lemma apply_grow_ok l : forall ns multi, Forall (fun i => i + multi < length (ns_ranges ns)) l ->
  exists ns', apply_grow ns l multi = Ok ns' /\ ns_text ns' = ns_text ns /\ ns_offsets ns' = ns_offsets ns /\ length (ns_ranges ns') = length (ns_ranges ns) + length l.
Proof.
  induction l as [|i l IH]; intros ns multi H; [exists ns; cbn; repeat split; lia|].
  inversion H as [|? ? Hi Hl]; subst. cbn [apply_grow].
  destruct (nth_error (ns_ranges ns) (i + multi)) as [[st li]|] eqn:E; [|apply nth_error_None in E; lia].
  rewrite (transform_grow _ _ _ _ E). cbn [bind].
  destruct (IH (mkNs (ns_text ns) (firstn (i + multi) (ns_ranges ns) ++ (st, 1) :: (st + 1, 1) :: skipn (S (i + multi)) (ns_ranges ns)) (ns_offsets ns)) (S multi))
    as (ns' & H1 & H2 & H3 & H4).
  - cbn [ns_ranges]. rewrite app_length. cbn [length]. rewrite firstn_length, skipn_length. eapply Forall_impl; [|exact Hl]. cbn. lia.
  - exists ns'. split; [exact H1|]. split; [exact H2|]. split; [exact H3|]. rewrite H4. cbn [ns_ranges length]. rewrite app_length. cbn [length].
    rewrite firstn_length, skipn_length. lia.
Qed.

Lemma normalize_nf_spec E f ns : length (ns_text ns) <= length (ns_ranges ns) ->
  match e_norm E f (map fix_cp (ns_text ns)) with
  | None => normalize_nf E f ns = Throw RuntimeError
  | Some r => exists ns', normalize_nf E f ns = Ok ns' /\ ns_text ns' = r /\ ns_offsets ns' = ns_offsets ns /\
      length (ns_ranges ns') = length (ns_ranges ns) + length (grow_ids (length (ns_text ns)) (ns_text ns) r 0 0)
  end.
Proof.
  intros H. unfold normalize_nf. destruct (e_norm E f _) as [r|]; [|reflexivity].
  destruct (apply_grow_ok (grow_ids (length (ns_text ns)) (ns_text ns) r 0 0) ns 0) as (ns' & -> & H2 & H3 & H4).
  - eapply Forall_impl; [|apply grow_ids_bound]. cbn. lia.
  - cbn [bind]. eexists; split; [reflexivity|]. cbn. auto.
Qed.

Lemma mark_ids_in E l : forall i k, In k (mark_ids E l i) <-> (i <= k /\ exists c, nth_error l (k - i) = Some c /\ e_is_mn E c = true).
Proof.
  induction l as [|c l IH]; intros i k; cbn [mark_ids].
  - split; [intros [] | intros (_ & c & Hc & _); destruct (k - i); discriminate].
  - assert (Hs : (i < k /\ exists c', nth_error l (k - S i) = Some c' /\ e_is_mn E c' = true) <-> i < k /\ exists c', nth_error (c :: l) (k - i) = Some c' /\ e_is_mn E c' = true).
    { split; intros [H1 H2]; (split; [exact H1|]); replace (k - i) with (S (k - S i)) in * by lia; exact H2. }
    destruct (e_is_mn E c) eqn:Ec.
    + cbn [In]. rewrite IH. split.
      * intros [<-|H]; [split; [lia|]; exists c; rewrite Nat.sub_diag; auto | apply Hs in H as [H1 H2]; split; [lia | exact H2]].
      * intros [H1 H2]. destruct (Nat.eq_dec i k) as [->|]; [auto|]. right. apply Hs. split; [lia | exact H2].
    + rewrite IH. split.
      * intros H. apply Hs in H as [H1 H2]. split; [lia | exact H2].
      * intros [H1 (c' & H2 & H3)]. destruct (Nat.eq_dec i k) as [->|]; [rewrite Nat.sub_diag in H2; cbn in H2; congruence|]. apply Hs. split; [lia | eauto].
Qed.
Lemma mark_ids_sorted E l : forall i, Sorted.StronglySorted lt (mark_ids E l i).
Proof.
  induction l as [|c l IH]; intros i; cbn [mark_ids]; [constructor|]. destruct (e_is_mn E c); [|apply IH]. constructor; [apply IH|].
  apply Forall_forall. intros k Hk. apply mark_ids_in in Hk as [Hk _]. lia.
Qed.

Lemma apply_shrink_ok l : forall ns multi, Sorted.StronglySorted lt l -> Forall (fun i => multi <= i /\ i < length (ns_ranges ns) + multi) l ->
  exists ns', apply_shrink ns l multi = Ok ns' /\ ns_text ns' = ns_text ns /\ ns_offsets ns' = ns_offsets ns /\ length (ns_ranges ns') = length (ns_ranges ns) - length l.
Proof.
  induction l as [|i l IH]; intros ns multi HS H; [exists ns; cbn; repeat split; lia|].
  inversion H as [|? ? Hi Hl]; subst. inversion HS as [|? ? HS' Hlt]; subst. cbn [apply_shrink].
  destruct (nth_error (ns_ranges ns) (i - multi)) as [p|] eqn:E; [|apply nth_error_None in E; lia].
  rewrite (transform_shrink _ _ _ E). cbn [bind].
  destruct (IH (mkNs (ns_text ns) (firstn (i - multi) (ns_ranges ns) ++ skipn (S (i - multi)) (ns_ranges ns)) (ns_offsets ns)) (S multi) HS')
    as (ns' & H1 & H2 & H3 & H4).
  - cbn [ns_ranges]. rewrite app_length. rewrite firstn_length, skipn_length. apply Forall_forall. intros k Hk.
    rewrite Forall_forall in Hl, Hlt. specialize (Hl k Hk). specialize (Hlt k Hk). lia.
  - exists ns'. split; [exact H1|]. split; [exact H2|]. split; [exact H3|]. rewrite H4. cbn [ns_ranges length]. rewrite app_length.
    rewrite firstn_length, skipn_length. lia.
Qed.
Lemma apply_shrink_oob l : forall ns multi, Sorted.StronglySorted lt l -> Forall (fun i => multi <= i) l ->
  ~ Forall (fun i => i < length (ns_ranges ns) + multi) l -> apply_shrink ns l multi = Undef OobIndex.
Proof.
  induction l as [|i l IH]; intros ns multi HS H Hn; [exfalso; apply Hn; constructor|].
  inversion H as [|? ? Hi Hl]; subst. inversion HS as [|? ? HS' Hlt]; subst. cbn [apply_shrink].
  destruct (nth_error (ns_ranges ns) (i - multi)) as [p|] eqn:E.
  2:{ apply nth_error_None in E. rewrite transform_oob by exact E. reflexivity. }
  rewrite (transform_shrink _ _ _ E). cbn [bind]. assert (i - multi < length (ns_ranges ns)) by (apply nth_error_Some; congruence).
  apply IH; [exact HS' | |].
  - rewrite Forall_forall in *. intros k Hk. specialize (Hlt k Hk). lia.
  - cbn [ns_ranges]. rewrite app_length, firstn_length, skipn_length. intros HF. apply Hn. constructor; [lia|].
    eapply Forall_impl; [|exact HF]. cbn. lia.
Qed.

(** ** Accents *)
Lemma strip_accents_exact E ns r : length (ns_text ns) <= length (ns_ranges ns) -> e_norm E NFD (map fix_cp (ns_text ns)) = Some r ->
  let room := length (ns_ranges ns) + length (grow_ids (length (ns_text ns)) (ns_text ns) r 0 0) in
  ((forall i c, nth_error r i = Some c -> e_is_mn E c = true -> i < room) ->
     exists ns', do_strip_accents E ns = Ok ns' /\ ns_text ns' = filter (fun c => negb (e_is_mn E c)) r /\ ns_offsets ns' = ns_offsets ns /\
       length (ns_ranges ns') = room - length (mark_ids E r 0)) /\
  ((exists i c, nth_error r i = Some c /\ e_is_mn E c = true /\ room <= i) -> do_strip_accents E ns = Undef OobIndex).
Proof.
  intros H Hr room. pose proof (normalize_nf_spec E NFD ns H) as HN. rewrite Hr in HN. destruct HN as (n1 & H1 & H2 & H3 & H4).
  unfold do_strip_accents. rewrite H1. cbn [bind]. rewrite H2. split.
  - intros Hall. destruct (apply_shrink_ok (mark_ids E r 0) n1 0) as (n2 & -> & H6 & H7 & H8).
    + apply mark_ids_sorted.
    + apply Forall_forall. intros k Hk. apply mark_ids_in in Hk as (_ & c & Hc & Hm). rewrite Nat.sub_0_r in Hc. specialize (Hall _ _ Hc Hm). unfold room in Hall. lia.
    + cbn [bind]. eexists; split; [reflexivity|]. cbn [set_text ns_text ns_ranges ns_offsets]. rewrite H7, H8, H4. auto.
  - intros (i & c & Hc & Hm & Hi). rewrite apply_shrink_oob; [reflexivity | apply mark_ids_sorted | apply Forall_forall; intros; lia |].
    intros HF. rewrite Forall_forall in HF. specialize (HF i). rewrite mark_ids_in, Nat.sub_0_r in HF.
    specialize (HF (conj (Nat.le_0_l _) (ex_intro _ c (conj Hc Hm)))). unfold room in Hi. lia.
Qed.

Definition two (p : N * wstr) : bool := length (snd p) =? 2.
Fixpoint two_ids (ps : list (N * wstr)) (i : nat) : list nat :=
  match ps with [] => [] | p :: r => if two p then i :: two_ids r (S i) else two_ids r (S i) end.

Lemma grow_ids_pieces ps : Forall simple_piece ps -> forall fuel o1 n1, length ps <= fuel ->
  grow_ids fuel (o1 ++ before ps) (n1 ++ after ps) (length o1) (length n1) = two_ids ps (length o1).
Proof.
  induction 1 as [|[c p] ps Hp _ IH]; intros fuel o1 n1 Hf.
  - cbn. rewrite app_nil_r. destruct fuel; cbn [grow_ids]; [reflexivity|]. rewrite (proj2 (nth_error_None o1 (length o1))) by lia. reflexivity.
  - destruct fuel as [|f]; [cbn in Hf; lia|]. cbn [length] in Hf. cbn [grow_ids before after map concat fst snd two_ids]. fold (before ps) (after ps).
    rewrite nth_error_app2, Nat.sub_diag by lia. cbn [nth_error].
    replace (S (length o1)) with (length (o1 ++ [c])) by (rewrite app_length; cbn; lia).
    replace (o1 ++ c :: before ps) with ((o1 ++ [c]) ++ before ps) by (rewrite <- app_assoc; reflexivity).
    destruct Hp as [Hp|(_ & x & y & Hp & Hx)]; cbn [fst snd] in *; subst p; unfold two; cbn [snd length Nat.eqb app].
    + rewrite nth_error_app2, Nat.sub_diag by lia. cbn [nth_error]. rewrite N.eqb_refl.
      replace (S (length n1)) with (length (n1 ++ [c])) by (rewrite app_length; cbn; lia).
      replace (n1 ++ c :: after ps) with ((n1 ++ [c]) ++ after ps) by (rewrite <- app_assoc; reflexivity). apply IH. lia.
    + rewrite nth_error_app2, Nat.sub_diag by lia. cbn [nth_error]. destruct (N.eqb_spec c x); [congruence|]. f_equal.
      replace (length n1 + 2) with (length (n1 ++ [x; y])) by (rewrite app_length; cbn; lia).
      replace (n1 ++ x :: y :: after ps) with ((n1 ++ [x; y]) ++ after ps) by (rewrite <- app_assoc; reflexivity). apply IH. lia.
Qed.

Fixpoint grown (ps : list (N * wstr)) (R : list (nat * nat)) : list (nat * nat) :=
  match ps, R with
  | p :: ps', (st, li) :: R' => (if two p then [(st, 1); (st + 1, 1)] else [(st, li)]) ++ grown ps' R'
  | _, _ => R
  end.

Lemma apply_grow_pieces ps : forall ns A R i multi, ns_ranges ns = A ++ R -> length ps <= length R -> length A = i + multi ->
  exists ns', apply_grow ns (two_ids ps i) multi = Ok ns' /\ ns_text ns' = ns_text ns /\ ns_offsets ns' = ns_offsets ns /\ ns_ranges ns' = A ++ grown ps R.
Proof.
  induction ps as [|p ps IH]; intros ns A R i multi HR Hl HA.
  - exists ns. cbn. auto.
  - destruct R as [|[st li] R]; [cbn in Hl; lia|]. cbn [length] in Hl. cbn [two_ids grown]. destruct (two p).
    + cbn [apply_grow]. assert (E : nth_error (ns_ranges ns) (i + multi) = Some (st, li)) by (rewrite HR, nth_error_app2, <- HA, Nat.sub_diag by lia; reflexivity).
      rewrite (transform_grow _ _ _ _ E). cbn [bind].
      destruct (IH (mkNs (ns_text ns) (firstn (i + multi) (ns_ranges ns) ++ (st, 1) :: (st + 1, 1) :: skipn (S (i + multi)) (ns_ranges ns)) (ns_offsets ns)) (A ++ [(st, 1); (st + 1, 1)]) R (S i) (S multi)) as (ns' & H1 & H2 & H3 & H4).
      * cbn [ns_ranges]. rewrite HR, <- HA. rewrite firstn_app, firstn_all, Nat.sub_diag. cbn [firstn]. rewrite app_nil_r.
        rewrite skipn_app, skipn_all2 by lia. replace (S (length A) - length A) with 1 by lia. cbn [skipn app]. rewrite <- app_assoc. reflexivity.
      * lia.
      * rewrite app_length. cbn. lia.
      * exists ns'. split; [exact H1|]. split; [exact H2|]. split; [exact H3|]. rewrite H4, <- app_assoc. reflexivity.
    + destruct (IH ns (A ++ [(st, li)]) R (S i) multi) as (ns' & H1 & H2 & H3 & H4).
      * rewrite <- app_assoc. exact HR.
      * lia.
      * rewrite app_length. cbn. lia.
      * exists ns'. split; [exact H1|]. split; [exact H2|]. split; [exact H3|]. rewrite H4, <- app_assoc. reflexivity.
Qed.

Fixpoint shrunk (E : env) (l : wstr) (R : list (nat * nat)) : list (nat * nat) :=
  match l, R with
  | c :: l', r :: R' => if e_is_mn E c then shrunk E l' R' else r :: shrunk E l' R'
  | _, _ => R
  end.

Lemma apply_shrink_spec E l : forall ns A R i multi, ns_ranges ns = A ++ R -> length l <= length R -> i = length A + multi ->
  exists ns', apply_shrink ns (mark_ids E l i) multi = Ok ns' /\ ns_text ns' = ns_text ns /\ ns_offsets ns' = ns_offsets ns /\ ns_ranges ns' = A ++ shrunk E l R.
Proof.
  induction l as [|c l IH]; intros ns A R i multi HR Hl HA.
  - exists ns. cbn. auto.
  - destruct R as [|r R]; [cbn in Hl; lia|]. cbn [length] in Hl. cbn [mark_ids shrunk]. destruct (e_is_mn E c).
    + cbn [apply_shrink]. replace (i - multi) with (length A) by lia.
      assert (Hn : nth_error (ns_ranges ns) (length A) = Some r) by (rewrite HR, nth_error_app2, Nat.sub_diag by lia; reflexivity).
      rewrite (transform_shrink _ _ _ Hn). cbn [bind].
      refine (IH (mkNs (ns_text ns) (firstn (length A) (ns_ranges ns) ++ skipn (S (length A)) (ns_ranges ns)) (ns_offsets ns)) A R (S i) (S multi) _ _ _); [|lia|lia].
      cbn [ns_ranges]. rewrite HR. rewrite firstn_app, firstn_all, Nat.sub_diag. cbn [firstn]. rewrite app_nil_r.
      rewrite skipn_app, skipn_all2 by lia. replace (S (length A) - length A) with 1 by lia. reflexivity.
    + destruct (IH ns (A ++ [r]) R (S i) multi) as (ns' & H1 & H2 & H3 & H4).
      * rewrite <- app_assoc. exact HR.
      * lia.
      * rewrite app_length. cbn. lia.
      * exists ns'. split; [exact H1|]. split; [exact H2|]. split; [exact H3|]. rewrite H4, <- app_assoc. reflexivity.
Qed.

Lemma fresh_block s k : k < length (from_utf32 s) -> exists st n, nth_error (ns_ranges (new_nstring s)) k = Some (st, n) /\
  n = length (utf8_of_cp (char32_at (from_utf32 s) k)) /\
  forall d, d < n -> nth_error (ns_offsets (new_nstring s)) (st + d) = Some (k, S k).
Proof.
  intros H. destruct (fresh_packed s) as [[Hr Ho Hp] _]. rewrite Hr, Ho.
  destruct (blocks_split (unit_blocks (from_utf32 s) (length (from_utf32 s)) 0) k) as (A & o & n & B & E & Hl); [rewrite unit_blocks_length; exact H|].
  pose proof (unit_blocks_nth (from_utf32 s) _ 0 k H) as Hk. rewrite E in Hk |- *. rewrite nth_error_app2, Hl, Nat.sub_diag in Hk by lia. cbn in Hk. injection Hk as -> ->.
  exists (size A), (length (utf8_of_cp (char32_at (from_utf32 s) k))). split; [|split; [reflexivity|]].
  - rewrite tab_ranges_app, nth_error_app2 by (rewrite tab_ranges_length; lia). rewrite tab_ranges_length, Hl, Nat.sub_diag. reflexivity.
  - intros d Hd. rewrite tab_offsets_app, nth_error_app2 by (rewrite tab_offsets_length; lia). rewrite tab_offsets_length.
    replace (size A + d - size A) with d by lia. cbn. rewrite nth_error_app1 by (rewrite repeat_length; exact Hd).
    rewrite (nth_error_nth' _ (k, S k)) by (rewrite repeat_length; exact Hd). f_equal. apply nth_repeat.
Qed.

Definition at_span (off : list (nat * nat)) (k : nat) (r : nat * nat) : Prop := nth_error off (fst r) = Some (k, S k).

Lemma grown_length ps : Forall simple_piece ps -> forall R, length ps = length R -> length (grown ps R) = length (after ps).
Proof.
  induction 1 as [|[c p] ps Hp _ IH]; intros [|[st li] R] H; cbn in H; try lia; [reflexivity|].
  cbn [grown after map concat snd]. fold (after ps). rewrite !app_length, IH by lia.
  destruct Hp as [Hp|(_ & x & y & Hp & _)]; cbn [snd fst] in Hp; subst p; reflexivity.
Qed.

Lemma shrunk_pieces E off ps : Forall simple_piece ps -> forall R k, length ps = length R ->
  (forall j st li, nth_error R j = Some (st, li) -> forall d, d < li -> nth_error off (st + d) = Some (k + j, S (k + j))) ->
  (forall j st li c p, nth_error R j = Some (st, li) -> nth_error ps j = Some (c, p) -> 0 < li /\ ((0x80 <= c)%N -> 1 < li)) ->
  Forall2 (at_span off) (kept_src (fun c => negb (e_is_mn E c)) ps k) (shrunk E (after ps) (grown ps R)).
Proof.
  induction 1 as [|[c p] ps Hp _ IH]; intros [|[st li] R] k H H1 H2; cbn in H; try lia; [constructor|].
  pose proof (H1 0 st li eq_refl) as Ha. rewrite Nat.add_0_r in Ha. destruct (H2 0 st li c p eq_refl eq_refl) as [Hb Hc].
  assert (HI : Forall2 (at_span off) (kept_src (fun c => negb (e_is_mn E c)) ps (S k)) (shrunk E (after ps) (grown ps R))).
  { apply IH; [lia| |].
    - intros j st' li' Hj d Hd. rewrite (H1 (S j) st' li' Hj d Hd). do 2 f_equal; lia.
    - intros j st' li' c' p' Hj Hj'. exact (H2 (S j) st' li' c' p' Hj Hj'). }
  cbn [kept_src grown after map concat snd]. fold (after ps).
  destruct Hp as [Hp|(Hge & x & y & Hp & _)]; cbn [snd fst] in *; subst p; unfold two; cbn [snd length Nat.eqb app shrunk filter].
  - destruct (e_is_mn E c); cbn [negb map app]; [exact HI|]. constructor; [|exact HI]. unfold at_span. cbn. specialize (Ha 0 ltac:(lia)). rewrite Nat.add_0_r in Ha. exact Ha.
  - assert (at_span off k (st, 1)) by (unfold at_span; cbn; specialize (Ha 0 ltac:(lia)); rewrite Nat.add_0_r in Ha; exact Ha).
    assert (at_span off k (st + 1, 1)) by (unfold at_span; cbn; apply Ha; lia).
    destruct (e_is_mn E x), (e_is_mn E y); cbn [negb map app]; repeat (constructor; [assumption|]); exact HI.
Qed.

Lemma bmp_units s : bmp s -> from_utf32 s = map fix_cp s.
Proof.
  induction 1 as [|c s Hc _ IH]; [reflexivity|]. cbn [from_utf32 flat_map map]. fold (from_utf32 s). rewrite IH. unfold fix_cp at 2.
  destruct (valid_cp c); [|reflexivity]. unfold utf16_enc. destruct (N.ltb_spec c 65536); [reflexivity | lia].
Qed.
Lemma fix_cp_plain c : (c < 0x10000)%N -> is_surrogate (fix_cp c) = false /\ (fix_cp c < 0x10000)%N /\ ((0x80 <= c)%N -> (0x80 <= fix_cp c)%N).
Proof.
  intros H. unfold fix_cp. destruct (valid_cp c) eqn:E; [|split; [reflexivity | lia]].
  split; [|lia]. unfold valid_cp in E. apply andb_prop in E as [E _]. destruct (is_surrogate c); [discriminate | reflexivity].
Qed.
Lemma char32_at_bmp s k c : bmp s -> nth_error s k = Some c -> char32_at (from_utf32 s) k = fix_cp c.
Proof.
  intros Hb Hk. rewrite bmp_units by exact Hb. unfold char32_at. rewrite nth_error_map, Hk. cbn [option_map].
  destruct (fix_cp_plain c) as (H & _); [exact (proj1 (Forall_forall _ _) Hb _ (nth_error_In _ _ Hk))|].
  unfold is_surrogate, is_lead, is_trail in *.
  repeat match goal with |- context [if ?b then _ else _] => destruct b eqn:?; try (exfalso; lia) end; reflexivity.
Qed.
Lemma utf8_len_2 c : (0x80 <= c)%N -> 1 < length (utf8_of_cp c).
Proof.
  intros H. unfold utf8_of_cp. destruct (is_surrogate c); [cbn; lia|]. unfold utf8_enc.
  destruct (N.ltb_spec c 128); [lia|]. repeat match goal with |- context [if ?b then _ else _] => destruct b end; cbn; lia.
Qed.

Lemma strip_accents_aligned E ps : bmp (before ps) -> Forall simple_piece ps -> e_norm E NFD (map fix_cp (before ps)) = Some (after ps) ->
  exists ns', do_strip_accents E (new_nstring (before ps)) = Ok ns' /\
    ns_text ns' = filter (fun c => negb (e_is_mn E c)) (after ps) /\
    length (ns_ranges ns') = length (ns_text ns') /\
    origins ns' (length (ns_text ns')) = map unit_span (kept_src (fun c => negb (e_is_mn E c)) ps 0).
Proof.
  intros Hb Hp HN. set (s := before ps) in *. set (ns := new_nstring s).
  assert (Ht : ns_text ns = s) by (apply (fresh_packed s)).
  assert (HR : length (ns_ranges ns) = length ps) by (unfold ns; rewrite fresh_length, bmp_len by exact Hb; unfold s, before; rewrite map_length; reflexivity).
  assert (Hu : length (from_utf32 s) = length ps) by (rewrite bmp_len by exact Hb; unfold s, before; rewrite map_length; reflexivity).
  unfold do_strip_accents, normalize_nf. rewrite Ht, HN.
  pose proof (grow_ids_pieces ps Hp (length s) [] []) as HG. cbn [app length] in HG. fold s in HG. rewrite HG by (unfold s, before; rewrite map_length; lia).
  destruct (apply_grow_pieces ps ns [] (ns_ranges ns) 0 0) as (n1 & -> & H2 & H3 & H4); [reflexivity | lia | reflexivity|]. cbn [bind app] in *.
  cbn [set_text ns_text].
  destruct (apply_shrink_spec E (after ps) (set_text n1 (after ps)) [] (grown ps (ns_ranges ns)) 0 0) as (n2 & -> & H6 & H7 & H8).
  - exact H4.
  - rewrite grown_length by (assumption || lia). lia.
  - reflexivity.
  - cbn [bind app] in *. eexists; split; [reflexivity|]. cbn [set_text ns_text ns_ranges ns_offsets]. split; [reflexivity|].
    assert (HF : Forall2 (at_span (ns_offsets ns)) (kept_src (fun c => negb (e_is_mn E c)) ps 0) (ns_ranges n2)).
    { rewrite H8. apply shrunk_pieces; [exact Hp | lia | |].
      - intros j st li Hj d Hd. destruct (fresh_block s j) as (st' & n' & E1 & _ & E2).
        + rewrite Hu, <- HR. apply nth_error_Some. congruence.
        + fold ns in E1, E2. rewrite Hj in E1. injection E1 as <- <-. exact (E2 d Hd).
      - intros j st li c p Hj Hjp. destruct (fresh_block s j) as (st' & n' & E1 & E2 & _).
        + rewrite Hu. apply nth_error_Some. congruence.
        + fold ns in E1. rewrite Hj in E1. injection E1 as <- <-. rewrite E2. split; [apply utf8_of_cp_pos|].
          intros Hc. rewrite (char32_at_bmp s j c Hb) by (unfold s, before; rewrite nth_error_map, Hjp; reflexivity).
          apply utf8_len_2. apply fix_cp_plain; [|exact Hc]. apply (proj1 (Forall_forall _ _) Hb). unfold s, before. apply in_map_iff. exists (c, p). split; [reflexivity|]. eapply nth_error_In; eauto. }
    assert (Hk : forall k, length (kept_src (fun c => negb (e_is_mn E c)) ps k) = length (filter (fun c => negb (e_is_mn E c)) (after ps))).
    { clear. induction ps as [|[c p] ps IH]; intros k; [reflexivity|]. cbn [kept_src after map concat snd]. rewrite filter_app, !app_length, map_length. rewrite IH. reflexivity. }
    assert (Hlen : length (ns_ranges n2) = length (filter (fun c => negb (e_is_mn E c)) (after ps))).
    { rewrite <- (Hk 0). clear -HF. induction HF; cbn; congruence. }
    split; [exact Hlen|]. rewrite <- Hlen. unfold origins, origin. cbn [set_text ns_ranges ns_offsets]. rewrite H7. cbn [set_text ns_offsets]. rewrite H3.
    fold ns. clear -HF. revert HF. generalize (kept_src (fun c => negb (e_is_mn E c)) ps 0) as ks. generalize (ns_ranges n2) as R. generalize (ns_offsets ns) as off. clear.
    intros off R ks HF. induction HF as [|k [st li] ks R Hk _ IH]; [reflexivity|]. cbn [length]. rewrite <- cons_seq. cbn [map]. rewrite <- seq_shift, map_map.
    f_equal; [exact Hk | exact IH].
Qed.

(** ** clean_text *)
Lemma clean_text_out E l : forall ns i ns' t, clean_loop E ns i l = Ok (ns', t) ->
  t = map (fun c => if is_whitespace E c then 32%N else c) (filter (fun c => negb (removed_by_clean E c)) l).
Proof.
  induction l as [|c l IH]; intros ns i ns' t H; cbn [clean_loop] in H; [injection H as _ <-; reflexivity|]. cbn [filter].
  destruct (removed_by_clean E c); cbn [negb].
  - destruct (transform ns i OpErase) as [n1| | |]; cbn [bind] in H; try discriminate. eapply IH; eauto.
  - destruct (clean_loop E ns (S i) l) as [[n1 t1]| | |] eqn:E1; cbn [bind] in H; try discriminate. injection H as _ <-. cbn [map]. f_equal. eapply IH; eauto.
Qed.
Lemma clean_nothing E l : forall ns i, Forall (fun c => removed_by_clean E c = false) l ->
  clean_loop E ns i l = Ok (ns, map (fun c => if is_whitespace E c then 32%N else c) l).
Proof.
  induction l as [|c l IH]; intros ns i H; [reflexivity|]. inversion H as [|? ? Hc Hl]; subst. cbn [clean_loop]. rewrite Hc, IH by exact Hl. reflexivity.
Qed.

Fixpoint apply_erase (ns : nstring) (l : list nat) : res nstring :=
  match l with [] => Ok ns | i :: r => ns' <- transform ns i OpErase ;; apply_erase ns' r end.
Lemma clean_erase E l : forall ns i,
  clean_loop E ns i l = (ns' <- apply_erase ns (positions (removed_by_clean E) l i) ;; Ok (ns', map (fun c => if is_whitespace E c then 32%N else c) (filter (fun c => negb (removed_by_clean E c)) l))).
Proof.
  induction l as [|c l IH]; intros ns i; [reflexivity|]. cbn [clean_loop positions filter]. destruct (removed_by_clean E c); cbn [negb].
  - cbn [apply_erase]. destruct (transform ns i OpErase) as [n1| | |]; cbn [bind]; try reflexivity. apply IH.
  - rewrite IH. destruct (apply_erase ns (positions (removed_by_clean E) l (S i))) as [n1| | |]; cbn [bind]; reflexivity.
Qed.

(** erasing from a table of one-byte entries that are not refreshed: L entries originally, k already erased below b *)
Definition thin (ns : nstring) (L k b : nat) : Prop :=
  length (ns_offsets ns) = L - k /\ k <= L /\ forall m, b <= m -> nth_error (ns_ranges ns) m = if m + k <? L then Some (m + k, 1) else None.

Lemma erase_thin ns L k b i : thin ns L k b -> b <= i ->
  if i + 2 * k + 1 <=? L then exists ns', transform ns i OpErase = Ok ns' /\ thin ns' L (S k) (S i) else transform ns i OpErase = Undef OobIndex.
Proof.
  intros (Ho & Hk & Hr) Hi. unfold transform, vat. rewrite (Hr i Hi). destruct (i + k <? L) eqn:E1.
  - cbn [bind]. destruct (i + 2 * k + 1 <=? L) eqn:E2.
    + unfold verase at 1. rewrite Ho. replace (i + k <=? i + k + 1) with true by lia. replace (i + k + 1 <=? L - k) with true by lia. cbn [andb bind].
      assert (Hlen : i < length (ns_ranges ns)) by (apply nth_error_Some; rewrite (Hr i Hi), E1; discriminate).
      rewrite verase1 by exact Hlen. cbn [bind]. eexists; split; [reflexivity|]. split; [|split; [lia|]].
      * cbn [ns_offsets]. rewrite app_length, firstn_length, skipn_length. lia.
      * intros m Hm. cbn [ns_ranges]. rewrite nth_error_app2 by (rewrite firstn_length; lia). rewrite firstn_length, Nat.min_l by lia.
        rewrite nth_error_skipn. replace (S i + (m - i)) with (S m) by lia. rewrite (Hr (S m)) by lia. replace (S m + k) with (m + S k) by lia. reflexivity.
    + unfold verase. rewrite Ho. replace (i + k + 1 <=? L - k) with false by lia. rewrite andb_false_r. reflexivity.
  - replace (i + 2 * k + 1 <=? L) with false by lia. reflexivity.
Qed.

Lemma apply_erase_thin l : forall ns L k b, thin ns L k b -> Sorted.StronglySorted lt l -> Forall (fun i => b <= i) l ->
  ((forall j i, nth_error l j = Some i -> i + 2 * (k + j) + 1 <= L) -> exists ns', apply_erase ns l = Ok ns') /\ ((exists j i, nth_error l j = Some i /\ L < i + 2 * (k + j) + 1) -> apply_erase ns l = Undef OobIndex).
Proof.
  induction l as [|i l IH]; intros ns L k b HT HS HF.
  - split; [exists ns; reflexivity|]. intros (j & i & Hj & _). destruct j; discriminate.
  - inversion HS as [|? ? HS' Hlt]; subst. inversion HF as [|? ? Hi _]; subst. pose proof (erase_thin ns L k b i HT Hi) as He. cbn [apply_erase].
    destruct (i + 2 * k + 1 <=? L) eqn:E.
    + destruct He as (ns' & -> & HT'). cbn [bind]. destruct (IH ns' L (S k) (S i) HT' HS' Hlt) as [H1 H2]. split.
      * intros Hall. apply H1. intros j i' Hj. specialize (Hall (S j) i' Hj). lia.
      * intros (j & i' & Hj & Hlt'). destruct j as [|j]; [cbn in Hj; injection Hj as <-; lia|]. apply H2. exists j, i'. split; [exact Hj | lia].
    + rewrite He. cbn [bind]. split; [|reflexivity]. intros Hall. specialize (Hall 0 i eq_refl). lia.
Qed.

Lemma positions_ge f l : forall i, Forall (fun k => i <= k < i + length l) (positions f l i).
Proof.
  induction l as [|c l IH]; intros i; cbn [positions length]; [constructor|].
  assert (Forall (fun k => i <= k < i + S (length l)) (positions f l (S i))) by (eapply Forall_impl; [|apply IH]; cbn; lia).
  destruct (f c); [constructor; [lia | assumption] | assumption].
Qed.
Lemma positions_sorted f l : forall i, Sorted.StronglySorted lt (positions f l i).
Proof.
  induction l as [|c l IH]; intros i; cbn [positions]; [constructor|]. destruct (f c); [|apply IH]. constructor; [apply IH|].
  eapply Forall_impl; [|apply positions_ge]. cbn. lia.
Qed.

Lemma unit_blocks_ascii s : Forall (fun c => (c < 0x80)%N) s -> forall k, k < length s -> char32_at (from_utf32 s) k = nth k s 0%N.
Proof.
  intros H k Hk. assert (Hb : bmp s) by (eapply Forall_impl; [|exact H]; cbn; lia).
  rewrite (char32_at_bmp s k (nth k s 0%N) Hb) by (apply nth_error_nth'; exact Hk).
  rewrite Forall_forall in H. specialize (H _ (nth_In s 0%N Hk)). unfold fix_cp, valid_cp, is_surrogate.
  repeat match goal with |- context [if ?b then _ else _] => destruct b eqn:?; try (exfalso; lia) end; reflexivity.
Qed.

Lemma ones_ranges B : forall a, Forall (fun p => snd p = 1) B -> forall m, nth_error (tab_ranges a B) m = if m <? length B then Some (a + m, 1) else None.
Proof.
  induction B as [|[o n] B IH]; intros a H m; cbn [tab_ranges length]; [destruct m; reflexivity|].
  inversion H as [|? ? Hn HB]; subst. cbn in Hn; subst n. destruct m as [|m]; cbn [nth_error]; [rewrite Nat.add_0_r; reflexivity|].
  rewrite (IH (a + 1) HB). replace (a + 1 + m) with (a + S m) by lia. reflexivity.
Qed.
Lemma ones_size B : Forall (fun p => snd p = 1) B -> size B = length B.
Proof. induction 1 as [|[o n] B Hn _ IH]; cbn in *; lia. Qed.

Lemma ascii_ones s : Forall (fun c => (c < 0x80)%N) s -> Forall (fun p => snd p = 1) (unit_blocks (from_utf32 s) (length (from_utf32 s)) 0).
Proof.
  intros H. apply Forall_forall. intros [o n] Hin. apply In_nth_error in Hin as [k Hk].
  assert (Hb : bmp s) by (eapply Forall_impl; [|exact H]; cbn; lia).
  assert (Hl : k < length (from_utf32 s)) by (rewrite <- (unit_blocks_length (from_utf32 s) (length (from_utf32 s)) 0); apply nth_error_Some; congruence).
  rewrite unit_blocks_nth in Hk by exact Hl. injection Hk as _ <-. cbn. rewrite bmp_len in Hl by exact Hb. rewrite (unit_blocks_ascii s H k Hl).
  rewrite Forall_forall in H. specialize (H _ (nth_In s 0%N Hl)). unfold utf8_of_cp, is_surrogate, utf8_enc.
  repeat match goal with |- context [if ?b then _ else _] => destruct b eqn:?; try (exfalso; lia) end; reflexivity.
Qed.

Lemma fresh_thin s : Forall (fun c => (c < 0x80)%N) s -> thin (new_nstring s) (length s) 0 0.
Proof.
  intros H. assert (Hb : bmp s) by (eapply Forall_impl; [|exact H]; cbn; lia). destruct (fresh_packed s) as [[Hr Ho _] _].
  pose proof (ascii_ones s H) as H1. split; [|split; [lia|]].
  - rewrite Ho, tab_offsets_length, ones_size, unit_blocks_length, bmp_len by assumption. lia.
  - intros m _. rewrite Hr, ones_ranges by exact H1. rewrite unit_blocks_length, bmp_len, Nat.add_0_r by exact Hb. reflexivity.
Qed.

(** ** Replace *)
Lemma first_at_spec c s : forall pos, match first_at c s pos with
  | None => positions (N.eqb c) s pos = [] /\ ~ In c s
  | Some p => exists s1 s2, s = s1 ++ c :: s2 /\ ~ In c s1 /\ p = pos + length s1
  end.
Proof.
  induction s as [|x s IH]; intros pos; cbn [first_at positions]; [split; [reflexivity | intros []]|].
  destruct (N.eqb_spec x c) as [->|Hne].
  - exists [], s. cbn. repeat split; [intros [] | lia].
  - destruct (N.eqb_spec c x); [congruence|]. specialize (IH (S pos)). destruct (first_at c s (S pos)) as [p|].
    + destruct IH as (s1 & s2 & -> & Hn & ->). exists (x :: s1), s2. cbn. repeat split; [intros [|]; congruence || auto | lia].
    + destruct IH as [H1 H2]. split; [exact H1 | intros [|]; congruence || auto].
Qed.
Lemma positions_none f l : forall i, (forall x, In x l -> f x = false) -> positions f l i = [].
Proof.
  induction l as [|x l IH]; intros i H; cbn; [reflexivity|]. rewrite (H x) by (left; reflexivity). apply IH. intros y Hy. apply H. right; exact Hy.
Qed.
Lemma positions_app f l1 l2 : forall i, positions f (l1 ++ l2) i = positions f l1 i ++ positions f l2 (i + length l1).
Proof.
  induction l1 as [|x l1 IH]; intros i; cbn [app positions length]; [rewrite Nat.add_0_r; reflexivity|].
  rewrite IH. replace (S i + length l1) with (i + S (length l1)) by lia. destruct (f x); reflexivity.
Qed.
Definition sub1 (c d x : N) : N := if (x =? c)%N then d else x.
Lemma sub1_none c d l : ~ In c l -> map (sub1 c d) l = l.
Proof.
  induction l as [|x l IH]; intros H; cbn; [reflexivity|]. rewrite IH by (intros Hin; apply H; right; exact Hin). f_equal.
  unfold sub1. destruct (N.eqb_spec x c) as [->|]; [exfalso; apply H; left; reflexivity | reflexivity].
Qed.

Lemma replace_matches_spec E c d : finds_literally E c -> e_inplace E = true -> forall fuel b a we, length b < fuel ->
  replace_matches E fuel [c] [d] (a ++ b) (length a) we = Ok (a ++ map (sub1 c d) b, positions (N.eqb c) b (length a)).
Proof.
  intros [_ HE] Hin. induction fuel as [|f IH]; intros b a we Hf; [lia|]. cbn [replace_matches]. rewrite HE.
  rewrite skipn_app, skipn_all, Nat.sub_diag. cbn [skipn app]. pose proof (first_at_spec c b (length a)) as HF.
  destruct (first_at c b (length a)) as [p|].
  - destruct HF as (s1 & s2 & -> & Hn & ->). rewrite app_length in Hf. cbn [length] in Hf.
    replace (length a + length s1) with (length (a ++ s1)) by apply app_length.
    replace (a ++ s1 ++ c :: s2) with ((a ++ s1) ++ [c] ++ s2) by (rewrite <- app_assoc; reflexivity).
    pose proof (verase_mid (a ++ s1) [c] s2) as Hv. cbn [length] in Hv. rewrite Hv. cbn [bind]. rewrite vinsert_mid. cbn [bind]. rewrite Hin. cbn [andb length Nat.eqb].
    replace (length (a ++ s1) + 1) with (length ((a ++ s1) ++ [d])) by (rewrite !app_length; cbn; lia).
    replace ((a ++ s1) ++ [d] ++ s2) with (((a ++ s1) ++ [d]) ++ s2) by (rewrite <- app_assoc; reflexivity).
    rewrite IH by lia. cbn [bind]. f_equal. f_equal.
    + rewrite map_app. cbn [map]. rewrite (sub1_none c d s1 Hn). change (sub1 c d c) with (if (c =? c)%N then d else c). rewrite N.eqb_refl. rewrite <- !app_assoc. reflexivity.
    + rewrite positions_app. cbn [positions]. rewrite N.eqb_refl.
      rewrite (positions_none _ s1) by (intros x Hx; apply N.eqb_neq; intros <-; contradiction). cbn [app]. rewrite !app_length. cbn [length]. f_equal. f_equal. lia.
  - destruct HF as [-> Hn]. rewrite sub1_none by exact Hn. reflexivity.
Qed.

(** tables whose byte table is possibly longer than the entries use *)
Definition loose (ns : nstring) (bl : blocks) : Prop :=
  ns_ranges ns = tab_ranges 0 bl /\ Forall (fun p => 0 < snd p) bl /\ size bl <= length (ns_offsets ns).
Lemma packed_loose ns bl : Packed ns bl -> loose ns bl.
Proof. intros [H1 H2 H3]. split; [exact H1|]. split; [exact H3|]. rewrite H2, tab_offsets_length. lia. Qed.

Lemma transform_replace ns A B o n k : loose ns (A ++ (o, n) :: B) -> 0 < k ->
  exists ns', transform ns (length A) (OpReplace k) = Ok ns' /\ ns_text ns' = ns_text ns /\ loose ns' (A ++ (o, k) :: B) /\
    (n = 1 -> Packed ns (A ++ (o, n) :: B) -> Packed ns' (A ++ (o, k) :: B)).
Proof.
  intros (Hr & Hp & Hs) Hk. apply Forall_app in Hp as [HA HB]. inversion HB as [|? ? Hn HB']; subst. cbn in Hn.
  rewrite size_app in Hs. cbn [size] in Hs.
  assert (Hr' : ns_ranges ns = tab_ranges 0 A ++ [(size A, n)] ++ tab_ranges (size A + n) B) by (rewrite Hr, tab_ranges_app; reflexivity).
  unfold transform, vat at 1. rewrite Hr', nth_error_app2 by (rewrite tab_ranges_length; lia). rewrite tab_ranges_length, Nat.sub_diag. cbn [nth_error app bind].
  change ((size A, n) :: tab_ranges (size A + n) B) with ([(size A, n)] ++ tab_ranges (size A + n) B).
  pose proof (verase_mid (tab_ranges 0 A) [(size A, n)] (tab_ranges (size A + n) B)) as Hv. rewrite tab_ranges_length in Hv. cbn [length] in Hv. rewrite Hv. cbn [bind].
  pose proof (vinsert_mid (tab_ranges 0 A) (tab_ranges (size A + n) B) [(size A, k)]) as Hi. rewrite tab_ranges_length in Hi. rewrite Hi. cbn [bind].
  unfold vat. destruct (nth_error (ns_offsets ns) (size A)) as [o'|] eqn:Eo; [|apply nth_error_None in Eo; lia]. cbn [bind].
  destruct k as [|k]; [lia|]. unfold vinsert. replace (size A <=? length (ns_offsets ns)) with true by lia. cbn [bind].
  eexists; split; [reflexivity|]. split; [reflexivity|].
  assert (HR : refresh_from (length A + 1) (tab_ranges 0 A ++ [(size A, S k)] ++ tab_ranges (size A + n) B) = tab_ranges 0 (A ++ (o, S k) :: B)).
  { rewrite app_assoc. rewrite (refresh_mid _ (size A, S k) _ _ (length A)).
    - rewrite rebase_tab_ranges, tab_ranges_app, <- app_assoc. reflexivity.
    - rewrite app_length, tab_ranges_length. reflexivity.
    - lia.
    - rewrite app_nth2 by (rewrite tab_ranges_length; lia). rewrite tab_ranges_length, Nat.sub_diag. reflexivity. }
  split.
  - split; [exact HR|]. split.
    + apply Forall_app. split; [exact HA|]. constructor; [cbn; lia | exact HB'].
    + cbn [ns_offsets]. rewrite size_app. cbn [size]. rewrite !app_length, firstn_length, skipn_length, repeat_length. lia.
  - intros -> [_ HO _]. constructor; [exact HR | | apply Forall_app; split; [exact HA | constructor; [cbn; lia | exact HB']]].
    cbn [ns_offsets]. assert (o' = o) as ->.
    { rewrite HO, tab_offsets_app, nth_error_app2, tab_offsets_length, Nat.sub_diag in Eo by (rewrite tab_offsets_length; lia). cbn in Eo. congruence. }
    rewrite HO, !tab_offsets_app. rewrite <- (tab_offsets_length A), firstn_app, firstn_all, Nat.sub_diag, skipn_app, skipn_all, Nat.sub_diag. cbn [firstn skipn app].
    rewrite app_nil_r. f_equal. cbn [tab_offsets flat_map fst snd]. rewrite <- (repeat_snoc o k), <- app_assoc. reflexivity.
Qed.

Lemma apply_replace_ok l : forall ns bl k multi, loose ns bl -> 0 < k -> (forall j i, nth_error l j = Some i -> i + multi + j < length bl) ->
  exists ns' bl', apply_replace ns l k 1 multi = Ok ns' /\ ns_text ns' = ns_text ns /\ loose ns' bl' /\ length bl' = length bl.
Proof.
  induction l as [|i l IH]; intros ns bl k multi HL Hk H; [exists ns, bl; auto|]. cbn [apply_replace].
  pose proof (H 0 i eq_refl) as Hi. destruct (blocks_split bl (i + multi)) as (A & o & n & B & -> & HA); [lia|]. rewrite <- HA.
  destruct (transform_replace ns A B o n k HL Hk) as (ns1 & -> & Ht & HL1 & _). cbn [bind].
  destruct (IH ns1 (A ++ (o, k) :: B) k (multi + 1) HL1 Hk) as (ns2 & bl2 & H1 & H2 & H3 & H4).
  - intros j i' Hj. specialize (H (S j) i' Hj). rewrite app_length in *. cbn [length] in *. lia.
  - exists ns2, bl2. split; [exact H1|]. split; [congruence|]. split; [exact H3|]. rewrite H4, !app_length. reflexivity.
Qed.
Lemma apply_replace_oob l : forall ns bl k multi, loose ns bl -> 0 < k -> (exists j i, nth_error l j = Some i /\ length bl <= i + multi + j) ->
  apply_replace ns l k 1 multi = Undef OobIndex.
Proof.
  induction l as [|i l IH]; intros ns bl k multi HL Hk (j & i' & Hj & Hl); [destruct j; discriminate|]. cbn [apply_replace].
  destruct (Nat.lt_ge_cases (i + multi) (length bl)) as [Hi|Hi].
  - destruct (blocks_split bl (i + multi) Hi) as (A & o & n & B & -> & HA). rewrite <- HA.
    destruct (transform_replace ns A B o n k HL Hk) as (ns1 & -> & Ht & HL1 & _). cbn [bind].
    apply (IH ns1 (A ++ (o, k) :: B) k (multi + 1) HL1 Hk).
    destruct j as [|j]; [cbn in Hj; injection Hj as <-; lia|]. exists j, i'. split; [exact Hj|]. rewrite app_length in *. cbn [length] in *. lia.
  - rewrite transform_oob; [reflexivity|]. destruct HL as (-> & _). rewrite tab_ranges_length. exact Hi.
Qed.

(** ** Strip *)
Lemma drop_while_spec f l : exists pre, l = pre ++ drop_while f l /\ Forall (fun c => f c = true) pre /\
  match drop_while f l with c :: _ => f c = false | [] => True end.
Proof.
  induction l as [|x l (pre & H1 & H2 & H3)]; [exists []; cbn; auto|]. cbn [drop_while]. destruct (f x) eqn:E.
  - exists (x :: pre). split; [cbn; congruence|]. split; [constructor; assumption | exact H3].
  - exists []. split; [reflexivity|]. split; [constructor | exact E].
Qed.
Lemma strip_stripped lft rgt s : forall ns, ns_text ns = s -> exists ns', strip_normalize lft rgt ns = Ok ns' /\ stripped strip_space lft rgt s (ns_text ns').
Proof.
  intros ns <-. eexists; split; [reflexivity|]. cbn [set_text ns_text]. set (s := ns_text ns).
  set (t1 := if lft then drop_while strip_space s else s).
  assert (H1 : exists pre, s = pre ++ t1 /\ Forall (fun c => strip_space c = true) pre /\ (lft = false -> pre = []) /\ (lft = true -> match t1 with c :: _ => strip_space c = false | [] => True end)).
  { unfold t1. destruct lft; [|exists []; cbn; repeat split; auto; discriminate]. destruct (drop_while_spec strip_space s) as (pre & H1 & H2 & H3). exists pre. repeat split; auto; discriminate. }
  destruct H1 as (pre & Hs & Hpre & Hl0 & Hl1).
  destruct rgt.
  - destruct (drop_while_spec strip_space (rev t1)) as (post & H1 & H2 & H3).
    assert (Ht : t1 = rev (drop_while strip_space (rev t1)) ++ rev post) by (rewrite <- rev_app_distr, <- H1, rev_involutive; reflexivity).
    exists pre, (rev post). split; [rewrite <- Ht; exact Hs|]. split; [exact Hpre|]. split; [apply Forall_rev; exact H2|]. split; [exact Hl0|]. split; [discriminate|]. split.
    + intros Hl. specialize (Hl1 Hl). destruct (rev (drop_while strip_space (rev t1))) as [|c r]; [exact I|]. rewrite Ht in Hl1. exact Hl1.
    + intros _. rewrite rev_involutive. exact H3.
  - exists pre, []. rewrite app_nil_r. split; [exact Hs|]. split; [exact Hpre|]. split; [constructor|]. split; [exact Hl0|]. split; [reflexivity|]. split; [exact Hl1 | discriminate].
Qed.

Lemma chinese_cjk c : is_chinese_char c = cjk c && negb ((0x2B820 <=? c) && (c <=? 0x2B91F))%N.
Proof. unfold is_chinese_char, cjk, cjk_blocks. cbn [existsb fst snd]. lia. Qed.
Lemma spaced_ext f g l : (forall c, In c l -> f c = g c) -> spaced f l = spaced g l.
Proof. induction l as [|c l IH]; intros H; cbn; [reflexivity|]. rewrite (H c (or_introl eq_refl)), IH by (intros; apply H; right; assumption). reflexivity. Qed.
Lemma spaced_src_ext f g l : (forall c, In c l -> f c = g c) -> forall k, spaced_src f l k = spaced_src g l k.
Proof. induction l as [|c l IH]; intros H k; cbn; [reflexivity|]. rewrite (H c (or_introl eq_refl)), IH by (intros; apply H; right; assumption). reflexivity. Qed.

Lemma spaced_none f l : (forall c, In c l -> f c = false) -> spaced f l = l.
Proof. induction l as [|c l IH]; intros H; cbn; [reflexivity|]. rewrite (H c (or_introl eq_refl)), IH by (intros; apply H; right; assumption). reflexivity. Qed.
Lemma pad_blocks_none l : forall B, (forall c, In c l -> is_chinese_char c = false) -> pad_blocks l B = B.
Proof.
  induction l as [|c l IH]; intros [|[o n] B] H; cbn; try reflexivity. rewrite (H c (or_introl eq_refl)), IH by (intros; apply H; right; assumption). reflexivity.
Qed.

(** grow and shrink do nothing when nothing changes *)
Lemma grow_ids_same fuel l : forall i, grow_ids fuel l l i i = [].
Proof.
  induction fuel as [|f IH]; intros i; cbn [grow_ids]; [reflexivity|]. destruct (nth_error l i); [|reflexivity]. rewrite N.eqb_refl. apply IH.
Qed.
Lemma mark_ids_none E l : forall i, (forall c, In c l -> e_is_mn E c = false) -> mark_ids E l i = [].
Proof. induction l as [|c l IH]; intros i H; cbn; [reflexivity|]. rewrite (H c (or_introl eq_refl)). apply IH. intros; apply H; right; assumption. Qed.
Lemma filter_all {A} (f : A -> bool) l : (forall c, In c l -> f c = true) -> filter f l = l.
Proof. induction l as [|c l IH]; intros H; cbn; [reflexivity|]. rewrite (H c (or_introl eq_refl)), IH by (intros; apply H; right; assumption). reflexivity. Qed.

Lemma printable_fix s : Forall printable s -> map fix_cp s = s.
Proof.
  induction 1 as [|c s Hc _ IH]; [reflexivity|]. cbn [map]. rewrite IH. f_equal. unfold printable in Hc. unfold fix_cp, valid_cp, is_surrogate.
  repeat match goal with |- context [if ?b then _ else _] => destruct b eqn:?; try (exfalso; lia) end; reflexivity.
Qed.
Lemma printable_chinese c : printable c -> is_chinese_char c = false.
Proof. unfold printable, is_chinese_char. lia. Qed.

Lemma set_text_same ns : set_text ns (ns_text ns) = ns.
Proof. destruct ns; reflexivity. Qed.

(** the BERT normalizer on printable ASCII, tables included *)
Lemma bert_ascii E cl ch st lo ns bl : ascii_env E -> Packed ns bl -> length (ns_text ns) <= length bl -> Forall printable (ns_text ns) ->
  bert_normalize E cl ch st lo ns = Ok (set_text ns (map (fun c => if lo then lower_ascii c else c) (ns_text ns))).
Proof.
  intros HE HP Hl Hs. set (s := ns_text ns) in *. pose proof (proj1 (Forall_forall _ _) Hs) as Hin.
  assert (Hrm : Forall (fun c => removed_by_clean E c = false) s).
  { eapply Forall_impl; [|exact Hs]. intros c Hc. cbn beta. unfold removed_by_clean, is_control. rewrite (ae_ctrl E HE c Hc), andb_false_r. unfold printable in Hc. lia. }
  assert (Hws : map (fun c => if is_whitespace E c then 32%N else c) s = s).
  { rewrite <- (map_id s) at 2. apply map_ext_in. intros c Hc. specialize (Hin c Hc). unfold is_whitespace. rewrite (ae_space E HE c Hin). unfold printable, is_tnr in *.
    destruct (_ || _) eqn:Ew; [|reflexivity]. lia. }
  assert (H1 : (if cl then do_clean_text E ns else Ok ns) = Ok ns).
  { destruct cl; [|reflexivity]. unfold do_clean_text. fold s. rewrite (clean_nothing E s ns 0 Hrm), Hws. cbn [bind]. unfold s. rewrite set_text_same. reflexivity. }
  assert (H2 : (if ch then do_handle_chinese_chars ns else Ok ns) = Ok ns).
  { destruct ch; [|reflexivity]. unfold do_handle_chinese_chars. fold s.
    assert (Hc : chinese_ids s 0 = []).
    { generalize 0. clear -Hin. induction s as [|c s IH]; intros i; [reflexivity|]. cbn [chinese_ids]. rewrite printable_chinese by (apply Hin; left; reflexivity). apply IH. intros; apply Hin; right; assumption. }
    rewrite Hc. cbn [apply_pad bind]. pose proof (apply_changes_spec s []) as Ha. cbn [app length] in Ha. fold s. rewrite Ha. cbn [bind].
    rewrite spaced_none by (intros c Hc'; apply printable_chinese, Hin, Hc'). unfold s. rewrite set_text_same. reflexivity. }
  assert (H3 : do_strip_accents E ns = Ok ns).
  { unfold do_strip_accents, normalize_nf. fold s. rewrite printable_fix by exact Hs. rewrite (ae_nfd E HE s Hs), grow_ids_same. cbn [apply_grow bind].
    unfold s at 1. rewrite set_text_same. fold s. rewrite mark_ids_none by (intros c Hc; apply (ae_mn E HE), Hin, Hc). cbn [apply_shrink bind].
    rewrite filter_all by (intros c Hc; rewrite (ae_mn E HE c (Hin c Hc)); reflexivity). unfold s. destruct ns; reflexivity. }
  unfold bert_normalize. rewrite H1. cbn [bind]. rewrite H2. cbn [bind]. rewrite H3. destruct lo; cbn [orb].
  - rewrite orb_true_r. cbn [bind]. unfold do_lowercase. fold s. f_equal. f_equal. apply map_ext_in. intros c Hc. apply (ae_lower E HE), Hin, Hc.
  - rewrite map_id, orb_false_r. unfold s. rewrite set_text_same. destruct st; reflexivity.
Qed.
