(** The example program (C115). *)
From Verif Require Import Base BaseFacts Unicode Common Utils Tokenizer Config Run RunSpec UnicodeProofs PropsDecoder ConfigSpec PropsBertConfig Env.
From Coq Require Import ZifyBool ZifyN ZifyNat.

(** ** Numerals *)
Lemma value_snoc l d : value (l ++ [d]) = (10 * value l + (Z.of_N d - 48))%Z.
Proof. unfold value. rewrite fold_left_app. reflexivity. Qed.
Lemma value_nonneg l : Forall (fun d => (48 <= d <= 57)%N) l -> (0 <= value l)%Z.
Proof. induction l as [|d l IH] using rev_ind; intros H; [cbn; lia|]. rewrite value_snoc. apply Forall_app in H as [H1 H2]. apply Forall_inv in H2. specialize (IH H1). lia. Qed.
Lemma value_pos l : digits_ok l -> l <> [48%N] -> (0 < value l)%Z.
Proof.
  intros (H & Hn & Hh) Hz. destruct l as [|d l]; [congruence|]. cbn [hd] in Hh. assert (Hd : d <> 48%N) by (intros ->; apply Hz, Hh; reflexivity). clear Hn Hh Hz.
  induction l as [|x l IH] using rev_ind; [apply Forall_inv in H; cbn; lia|]. change (d :: l ++ [x]) with ((d :: l) ++ [x]) in *. rewrite value_snoc. apply Forall_app in H as [H1 H2]. apply Forall_inv in H2. specialize (IH H1). lia.
Qed.
Lemma digits_prefix l d : l <> [] -> digits_ok (l ++ [d]) -> digits_ok l /\ (48 <= d <= 57)%N /\ l <> [48%N].
Proof.
  intros Hl (H & _ & Hh). apply Forall_app in H as [H1 H2]. apply Forall_inv in H2. destruct l as [|x l]; [congruence|]. cbn [app hd] in Hh. assert (Hx : x <> 48%N).
  { intros ->. specialize (Hh eq_refl). injection Hh as E. destruct l; discriminate. }
  repeat split; [exact H1 | congruence | cbn [hd]; congruence | apply H2 | apply H2 | congruence].
Qed.
Lemma digits_unique l : forall l', digits_ok l -> digits_ok l' -> value l = value l' -> l = l'.
Proof.
  induction l as [|d l IH] using rev_ind; intros l' H H' E; [destruct H as (_ & H & _); congruence|]. destruct l' as [|d' l' _] using rev_ind; [destruct H' as (_ & H' & _); congruence|].
  rewrite !value_snoc in E.
  assert (Hd : (48 <= d <= 57)%N) by (destruct H as (H & _); apply Forall_app in H as [_ H]; apply Forall_inv in H; exact H).
  assert (Hd' : (48 <= d' <= 57)%N) by (destruct H' as (H' & _); apply Forall_app in H' as [_ H']; apply Forall_inv in H'; exact H').
  assert (N1 : (0 <= value l)%Z) by (apply value_nonneg; destruct H as (H & _); apply Forall_app in H; tauto).
  assert (N2 : (0 <= value l')%Z) by (apply value_nonneg; destruct H' as (H' & _); apply Forall_app in H'; tauto).
  assert (d = d') by lia. subst d'. assert (value l = value l') by lia. f_equal.
  destruct l as [|x l].
  - destruct l' as [|y l']; [reflexivity|]. apply digits_prefix in H' as (H1 & _ & H2); [|discriminate]. apply value_pos in H1; [|exact H2]. cbn [value fold_left] in *. lia.
  - destruct l' as [|y l']; [apply digits_prefix in H as (H1 & _ & H2); [|discriminate]; apply value_pos in H1; [|exact H2]; cbn [value fold_left] in *; lia|].
    apply digits_prefix in H as (H1 & _ & _); [|discriminate]. apply digits_prefix in H' as (H2 & _ & _); [|discriminate]. apply IH; assumption.
Qed.
Lemma digits_show f : forall n, (n < 2 ^ N.of_nat f)%N -> f <> 0 -> digits_ok (rev (show_digits f n)) /\ value (rev (show_digits f n)) = Z.of_N n.
Proof.
  induction f as [|f IH]; intros n Hn Hf; [congruence|]. cbn [show_digits rev]. destruct (N.ltb_spec n 10) as [Hs|Hs].
  - cbn [rev app]. rewrite N.mod_small by exact Hs. split; [split; [constructor; [lia | constructor]|]; split; [discriminate|]; cbn [hd]; intros ->; reflexivity|]. cbn [value fold_left]. lia.
  - rewrite value_snoc. assert (Hq : (1 <= n / 10)%N) by (apply N.div_le_lower_bound; lia). assert (Hm : (n mod 10 < 10)%N) by (apply N.mod_lt; lia).
    assert (Hb : (n / 10 < 2 ^ N.of_nat f)%N). { rewrite Nnat.Nat2N.inj_succ, N.pow_succ_r' in Hn. apply N.div_lt_upper_bound; lia. }
    assert (Hf0 : f <> 0) by (intros ->; cbn in Hb; lia).
    destruct (IH (n / 10)%N Hb Hf0) as ((H1 & H2 & H3) & H4). rewrite H4. split; [|pose proof (N.div_mod n 10); lia].
    split; [apply Forall_app; split; [exact H1 | constructor; [lia | constructor]]|]. split; [intros E; apply app_eq_nil in E as [_ E]; discriminate|].
    destruct (rev (show_digits f (n / 10))) as [|x r]; [congruence|]. cbn [app hd] in *. intros Hx. specialize (H3 Hx). injection H3 as -> ->. cbn [value fold_left] in H4. lia.
Qed.
Lemma show_numeral z : numeral z (show_int z).
Proof.
  unfold show_int. cbv zeta. remember (Z.to_N (Z.abs z)) as n eqn:En. assert (Hz : Z.of_N n = Z.abs z) by lia.
  destruct (digits_show (S (N.size_nat n)) n) as [H1 H2]; [|discriminate|].
  { rewrite Nnat.Nat2N.inj_succ, N.pow_succ_r'. pose proof (N.size_gt n) as G. assert (Es : N.of_nat (N.size_nat n) = N.size n). { clear. destruct n as [|p]; [reflexivity|]. cbn [N.size_nat N.size]. induction p as [p IH|p IH|]; cbn [Pos.size_nat Pos.size]; [rewrite Nnat.Nat2N.inj_succ, IH; reflexivity .. | reflexivity]. } rewrite Es. lia. }
  exists (rev (show_digits (S (N.size_nat n)) n)). split; [exact H1|]. destruct (Z.ltb_spec z 0); [right|left]; (split; [lia|]; split; [reflexivity | lia]).
Qed.
Lemma numeral_unique z b b' : numeral z b -> numeral z b' -> b = b'.
Proof. intros (d & H & [(P & -> & V)|(P & -> & V)]) (d' & H' & [(P' & -> & V')|(P' & -> & V')]); try lia; [|f_equal]; apply digits_unique; (assumption || lia). Qed.
Lemma numeral_inj z z' b : numeral z b -> numeral z' b -> z = z'.
Proof.
  intros (d & (H & H1 & _) & K) (d' & (H' & H1' & _) & K'). destruct K as [(P & E & V)|(P & E & V)], K' as [(P' & E' & V')|(P' & E' & V')]; subst.
  - reflexivity.
  - apply Forall_inv in H. lia.
  - apply Forall_inv in H'. lia.
  - injection E' as <-. lia.
Qed.
(** commas, closing brackets and parentheses do not occur in numerals *)
Definition solid (c : N) : Prop := (c <> 44 /\ c <> 93 /\ c <> 41 /\ c <> 10)%N.
Lemma numeral_solid z b : numeral z b -> Forall solid b /\ b <> [].
Proof.
  intros (d & (H & Hn & _) & K). assert (Forall solid d) by (eapply Forall_impl; [|exact H]; cbn beta; unfold solid; lia).
  destruct K as [(_ & -> & _)|(_ & -> & _)]; (split; [|congruence || discriminate]); [assumption | constructor; [unfold solid; lia | assumption]].
Qed.
Definition stops (r : bytes) : Prop := exists c r', r = c :: r' /\ ~ solid c.
Lemma solid_split x y r r' : Forall solid x -> Forall solid y -> stops r -> stops r' -> x ++ r = y ++ r' -> x = y /\ r = r'.
Proof.
  intros Hx. revert y. induction Hx as [|c x Hc Hx IH]; intros y Hy (a & s & -> & Ha) (b & s' & -> & Hb) E.
  - destruct Hy as [|d y Hd Hy]; [split; [reflexivity | exact E]|]. injection E as -> _. contradiction.
  - destruct Hy as [|d y Hd Hy]; [injection E as -> _; contradiction|]. injection E as -> E. destruct (IH y Hy ltac:(eexists; eexists; split; [reflexivity | exact Ha]) ltac:(eexists; eexists; split; [reflexivity | exact Hb]) E) as [-> ->]. split; reflexivity.
Qed.
(** [show] can be read back from the front of a text when a separator follows *)
Definition readable {A} (show : A -> bytes) : Prop :=
  (forall x y r r', stops r -> stops r' -> show x ++ r = show y ++ r' -> x = y /\ r = r') /\ (forall x, exists c s, show x = c :: s /\ c <> 93%N).
Lemma int_readable : readable show_int.
Proof.
  split.
  - intros x y r r' Hr Hr' E. pose proof (show_numeral x) as Hx. pose proof (show_numeral y) as Hy. apply solid_split in E as [E ->]; [|apply (numeral_solid _ _ Hx) | apply (numeral_solid _ _ Hy) | exact Hr | exact Hr'].
    split; [|reflexivity]. rewrite <- E in Hy. exact (numeral_inj _ _ _ Hx Hy).
  - intros x. destruct (numeral_solid _ _ (show_numeral x)) as [H Hn]. destruct (show_int x) as [|c s]; [congruence|]. exists c, s. split; [reflexivity|]. apply Forall_inv in H. unfold solid in H. lia.
Qed.
Lemma word_solid w : Forall solid (show_word w) /\ show_word w <> [].
Proof. destruct w as [n|]; [apply (numeral_solid _ _ (show_numeral _))|]. cbn. split; [repeat constructor; unfold solid; lia | discriminate]. Qed.
Lemma word_inj w w' : show_word w = show_word w' -> w = w'.
Proof.
  assert (K : forall n, show_word (Some n) <> str "None").
  { intros n E. destruct (show_numeral (Z.of_nat n)) as (d & (H & _) & [(_ & Ed & _)|(_ & Ed & _)]); cbn [show_word] in E; rewrite Ed in E; [subst d; apply Forall_inv in H; cbn in H; lia | discriminate]. }
  destruct w as [n|], w' as [m|]; intros E; [|destruct (K _ E) | symmetry in E; destruct (K _ E) | reflexivity].
  cbn [show_word] in E. pose proof (show_numeral (Z.of_nat n)) as H. rewrite E in H. pose proof (numeral_inj _ _ _ H (show_numeral (Z.of_nat m))). f_equal. lia.
Qed.
Lemma word_readable : readable show_word.
Proof.
  split.
  - intros x y r r' Hr Hr' E. apply solid_split in E as [E ->]; [|apply word_solid | apply word_solid | exact Hr | exact Hr']. split; [apply word_inj; exact E | reflexivity].
  - intros x. destruct (word_solid x) as [H Hn]. destruct (show_word x) as [|c s]; [congruence|]. exists c, s. split; [reflexivity|]. apply Forall_inv in H. unfold solid in H. lia.
Qed.
Lemma stop_comma q : stops (str ", " ++ q).
Proof. eexists 44%N, _. split; [reflexivity | unfold solid; lia]. Qed.
Lemma stop_close q : stops (str ")" ++ q).
Proof. eexists 41%N, _. split; [reflexivity | unfold solid; lia]. Qed.
Lemma stop_bracket q : stops (str "]" ++ q).
Proof. eexists 93%N, _. split; [reflexivity | unfold solid; lia]. Qed.
Lemma offsets_readable : readable show_offsets.
Proof.
  split; [|intros x; eexists; eexists; split; [reflexivity | discriminate]].
  intros [a b] [c d] r r' Hr Hr' E. unfold show_offsets in E. cbn [fst snd] in E. rewrite <- !app_assoc in E. apply app_inv_head in E.
  apply (proj1 int_readable) in E as [E1 E]; [|apply stop_comma ..]. apply app_inv_head in E.
  apply (proj1 int_readable) in E as [E2 E]; [|apply stop_close ..]. apply app_inv_head in E. split; [f_equal; lia | exact E].
Qed.
Lemma list_readable {A} (show : A -> bytes) : readable show -> forall l l' r r', print_result show l ++ r = print_result show l' ++ r' -> l = l' /\ r = r'.
Proof.
  intros [Hs Hh] l l' r r' E. unfold print_result in E. rewrite <- !app_assoc in E. apply app_inv_head in E.
  assert (K : forall l l', show_elems show l ++ str "]" ++ [10%N] ++ r = show_elems show l' ++ str "]" ++ [10%N] ++ r' -> l = l' /\ r = r').
  { clear l l' E. induction l as [|x l IH]; intros [|y l'] E.
    - split; [reflexivity|]. cbn [show_elems app] in E. do 2 apply app_inv_head in E || idtac. injection E as E. exact E.
    - destruct (Hh y) as (c & s & Ey & Hc). cbn [show_elems] in E. rewrite Ey in E. cbn [app] in E. injection E as E _. congruence.
    - destruct (Hh x) as (c & s & Ex & Hc). cbn [show_elems] in E. rewrite Ex in E. cbn [app] in E. injection E as E _. congruence.
    - cbn [show_elems] in E. rewrite <- !app_assoc in E. apply Hs in E as [-> E].
      + destruct l as [|x2 l], l' as [|y2 l']; cbn [app] in E.
        * split; [reflexivity|]. injection E as E. exact E.
        * discriminate.
        * discriminate.
        * rewrite <- !app_assoc in E. apply app_inv_head in E. apply IH in E as [E1 E2]. split; [f_equal; exact E1 | exact E2].
      + destruct l; [apply stop_bracket | rewrite <- app_assoc; apply stop_comma].
      + destruct l'; [apply stop_bracket | rewrite <- app_assoc; apply stop_comma]. }
  apply K. exact E.
Qed.

(** ** Lists *)
Lemma elems_join {A} (show : A -> bytes) l : show_elems show l = join (map show l).
Proof. induction l as [|x l IH]; [reflexivity|]. cbn [show_elems map join]. destruct l as [|y l]; [rewrite app_nil_r; reflexivity|]. cbn [map] in *. rewrite IH. reflexivity. Qed.
Lemma shown_listing {A} (show : A -> bytes) (P : A -> bytes -> Prop) l : (forall x, P x (show x)) -> exists b, listing P l b /\ print_result show l = b ++ [10%N].
Proof.
  intros H. exists (str "[" ++ join (map show l) ++ str "]"). split; [|unfold print_result; rewrite elems_join, <- !app_assoc; reflexivity].
  exists (map show l). split; [|reflexivity]. induction l; constructor; auto.
Qed.
Lemma listing_unique {A} (P : A -> bytes -> Prop) l b b' : (forall x y y', P x y -> P x y' -> y = y') -> listing P l b -> listing P l b' -> b = b'.
Proof.
  intros H (xs & H1 & ->) (ys & H2 & ->). do 2 f_equal. f_equal. revert ys H2. induction H1 as [|x y l xs Hx H1 IH]; intros ys H2; inversion H2; subst; [reflexivity|]. f_equal; [eapply H; eassumption | apply IH; assumption].
Qed.
Lemma listing_weaken {A} (P Q : A -> bytes -> Prop) l b : (forall x y, In x l -> P x y -> Q x y) -> listing P l b -> listing Q l b.
Proof.
  intros H (xs & H1 & ->). exists xs. split; [|reflexivity]. induction H1 as [|x y l xs Hx H1 IH]; constructor; [apply H; [left; reflexivity | exact Hx] | apply IH; intros; apply H; [right; assumption | assumption]].
Qed.
Lemma show_optional w : optional_numeral w (show_word w).
Proof. destruct w; [apply show_numeral | reflexivity]. Qed.
Lemma show_pair o : numeral_pair o (show_offsets o).
Proof. exists (show_int (Z.of_nat (fst o))), (show_int (Z.of_nat (snd o))). split; [apply show_numeral|]. split; [apply show_numeral | reflexivity]. Qed.
Lemma optional_unique w b b' : optional_numeral w b -> optional_numeral w b' -> b = b'.
Proof. destruct w; cbn; [apply numeral_unique | congruence]. Qed.
Lemma pair_unique o b b' : numeral_pair o b -> numeral_pair o b' -> b = b'.
Proof. intros (x & y & H1 & H2 & ->) (x' & y' & H1' & H2' & ->). rewrite (numeral_unique _ _ _ H1 H1'), (numeral_unique _ _ _ H2 H2'). reflexivity. Qed.
Lemma quoted_unique t b b' : quoted t b -> quoted t b' -> b = b'.
Proof. intros [[H ->]|[H ->]] [[H' ->]|[H' ->]]; congruence. Qed.
Lemma show_quoted t : quoted t (show_token t).
Proof. unfold show_token, quoted. cbv zeta. destruct (leqb t [39%N]) eqn:E; [apply leqb_eq in E; subst; left; split; reflexivity|]. right. split; [intros ->; discriminate | reflexivity]. Qed.
Lemma report_exists text e d : report quoted text e d (str "Encoding: " ++ text ++ [10%N] ++ str "ids: " ++ print_result show_int (en_ids e) ++ str "type_ids: " ++ print_result show_int (en_type_ids e) ++
                   str "tokens: " ++ print_result show_token (en_tokens e) ++ str "words: " ++ print_result show_word (en_words e) ++
                   str "offsets: " ++ print_result show_offsets (en_offsets e) ++ str "attention_mask: " ++ print_result show_int (en_amask e) ++
                   str "Decoding: " ++ print_result show_int (en_ids e) ++ str "tokens: " ++ d ++ [10%N]).
Proof.
  destruct (shown_listing show_int numeral (en_ids e) show_numeral) as (i & H1 & E1). destruct (shown_listing show_int numeral (en_type_ids e) show_numeral) as (ty & H2 & E2).
  destruct (shown_listing show_token quoted (en_tokens e) show_quoted) as (tk & H3 & E3). destruct (shown_listing show_word optional_numeral (en_words e) show_optional) as (w & H4 & E4).
  destruct (shown_listing show_offsets numeral_pair (en_offsets e) show_pair) as (o & H5 & E5). destruct (shown_listing show_int numeral (en_amask e) show_numeral) as (m & H6 & E6).
  rewrite E1, E2, E3, E4, E5, E6. pose proof (report_lines quoted text e d i ty tk w o m H1 H2 H3 H4 H5 H6) as R. unfold line in R. rewrite <- !app_assoc in R. rewrite <- !app_assoc. exact R.
Qed.
Lemma report_unique (tok : bytes -> bytes -> Prop) text e d o o' : (forall x y y', tok x y -> tok x y' -> y = y') -> report tok text e d o -> report tok text e d o' -> o = o'.
Proof.
  intros Ht [i ty tk w of m H1 H2 H3 H4 H5 H6] [i' ty' tk' w' of' m' H1' H2' H3' H4' H5' H6'].
  rewrite (listing_unique _ _ _ _ numeral_unique H1 H1'), (listing_unique _ _ _ _ numeral_unique H2 H2'), (listing_unique _ _ _ _ Ht H3 H3'), (listing_unique _ _ _ _ optional_unique H4 H4'), (listing_unique _ _ _ _ pair_unique H5 H5'), (listing_unique _ _ _ _ numeral_unique H6 H6'). reflexivity.
Qed.

(** ** C115 *)
(** The program ends normally exactly if the tokenizer can be built, the text is UTF-8, and encoding and decoding succeed; then it prints the report on them. *)
Theorem C115_output : forall E fuel load parse args out,
  run_main E fuel load parse args = (out, Ok tt) <->
  exists path text rest t w t' e d, args = path :: text :: rest /\ construct load parse path [] = Ok t /\ convert_to_string w = Ok text /\
    encode E fuel t w true = (t', Ok e) /\ decode t' (en_ids e) true = Ok d /\ report quoted text e d out.
Proof.
  intros E fuel load parse args out. split.
  - intros H. unfold run_main in H. destruct args as [|path [|text rest]]; [discriminate ..|]. destruct (construct load parse path []) as [t| | |] eqn:Ec; cbn [bind] in H; try discriminate.
    destruct (convert_from_string text) as [w| | |] eqn:Ew; cbn [bind] in H; try discriminate. destruct (encode E fuel t w true) as [t' r] eqn:Ee. destruct r as [e| | |]; cbn [bind] in H; try discriminate.
    apply (proj1 (proj1 (C76_utf8_rejects_everything_else text) w)) in Ew. rewrite Ew in H. cbn [bind] in H. cbv zeta in H. destruct (decode t' (en_ids e) true) as [d| | |] eqn:Ed; try discriminate.
    apply (f_equal fst) in H. cbn [fst] in H. subst out. exists path, text, rest, t, w, t', e, d. do 5 (split; [first [reflexivity | assumption]|]). rewrite <- !app_assoc. apply report_exists.
  - intros (path & text & rest & t & w & t' & e & d & -> & Hc & Hw & He & Hd & Hr). unfold run_main. rewrite Hc. cbn [bind].
    rewrite (proj2 (proj1 (C76_utf8_rejects_everything_else text) w) Hw). cbn [bind]. rewrite He. cbn [bind]. rewrite Hw. cbn [bind]. cbv zeta. rewrite Hd. f_equal. rewrite <- !app_assoc.
    eapply report_unique; [exact quoted_unique | apply report_exists | exact Hr].
Qed.
Print Assumptions C115_output.
(** Otherwise it ends with the error of the first call that fails; the columns have been printed only if decoding is what failed. *)
Theorem C115_failure : forall E fuel load parse path text rest,
  (forall x, construct load parse path [] = Throw x -> run_main E fuel load parse (path :: text :: rest) = ([], Throw x)) /\
  (forall t, construct load parse path [] = Ok t -> (forall w, convert_to_string w <> Ok text) -> run_main E fuel load parse (path :: text :: rest) = ([], Throw RangeError)) /\
  (forall t w t' x, construct load parse path [] = Ok t -> convert_to_string w = Ok text -> encode E fuel t w true = (t', Throw x) -> run_main E fuel load parse (path :: text :: rest) = ([], Throw x)) /\
  (forall t w t' e x d, construct load parse path [] = Ok t -> convert_to_string w = Ok text -> encode E fuel t w true = (t', Ok e) -> decode t' (en_ids e) true = Throw x ->
     exists out ids, run_main E fuel load parse (path :: text :: rest) = (out, Throw x) /\ listing numeral (en_ids e) ids /\ report quoted text e d (out ++ line "Decoding: " ids ++ line "tokens: " d)).
Proof.
  intros E fuel load parse path text rest. split; [|split; [|split]].
  - intros x H. unfold run_main. rewrite H. reflexivity.
  - intros t H Hw. unfold run_main. rewrite H. cbn [bind]. rewrite (proj2 (C76_utf8_rejects_everything_else text) Hw). reflexivity.
  - intros t w t' x H Hw He. unfold run_main. rewrite H. cbn [bind]. rewrite (proj2 (proj1 (C76_utf8_rejects_everything_else text) w) Hw). cbn [bind]. rewrite He. reflexivity.
  - intros t w t' e x d H Hw He Hd. unfold run_main. rewrite H. cbn [bind]. rewrite (proj2 (proj1 (C76_utf8_rejects_everything_else text) w) Hw). cbn [bind]. rewrite He. cbn [bind]. rewrite Hw. cbn [bind]. cbv zeta. rewrite Hd.
    destruct (shown_listing show_int numeral (en_ids e) show_numeral) as (i & H1 & E1). eexists. exists i. split; [reflexivity|]. split; [exact H1|]. unfold line. rewrite <- !app_assoc. pose proof (report_exists text e d) as R.
    rewrite E1 in R. rewrite E1. rewrite <- !app_assoc in R. rewrite <- !app_assoc. exact R.
Qed.
Print Assumptions C115_failure.

(** *** What the output says *)
Definition one_line (b : bytes) : Prop := ~ In 10%N b.
Lemma line_split x y r r' : one_line x -> one_line y -> x ++ [10%N] ++ r = y ++ [10%N] ++ r' -> x = y /\ r = r'.
Proof.
  unfold one_line. revert y. induction x as [|c x IH]; intros [|d y] Hx Hy E; cbn [app] in E; [injection E as E | injection E as E1 E ..].
  - split; [reflexivity | exact E].
  - subst d. destruct Hy. left. reflexivity.
  - subst c. destruct Hx. left. reflexivity.
  - destruct (IH y) as [-> ->]; [intros Q; apply Hx; right; exact Q | intros Q; apply Hy; right; exact Q | exact E | subst d; split; reflexivity].
Qed.
Lemma tokens_one_line l : Forall one_line l -> one_line (str "[" ++ show_elems show_token l ++ str "]").
Proof.
  intros H. assert (K : one_line (show_elems show_token l)).
  { unfold one_line in *. induction H as [|t l Ht H IH]; [exact (fun x => x)|]. cbn [show_elems]. intros Q. apply in_app_or in Q as [Q|Q].
    - unfold show_token in Q. cbv zeta in Q. apply in_app_or in Q as [Q|Q]; [destruct (leqb t [39%N]); cbn in Q; lia|]. apply in_app_or in Q as [Q|Q]; [exact (Ht Q) | destruct (leqb t [39%N]); cbn in Q; lia].
    - destruct l; [destruct Q|]. apply in_app_or in Q as [Q|Q]; [cbn in Q; lia | exact (IH Q)]. }
  unfold one_line in *. intros Q. apply in_app_or in Q as [Q|Q]; [cbn in Q; lia|]. apply in_app_or in Q as [Q|Q]; [exact (K Q) | cbn in Q; lia].
Qed.
(** If the texts and tokens have no newlines, equal outputs mean equal texts, ids, type ids, words, offsets, attention masks and decoded texts. *)
Theorem C115_faithful : forall text e d text' e' d' out, report quoted text e d out -> report quoted text' e' d' out -> one_line text -> one_line text' -> Forall one_line (en_tokens e) -> Forall one_line (en_tokens e') ->
  text = text' /\ en_ids e = en_ids e' /\ en_type_ids e = en_type_ids e' /\ en_words e = en_words e' /\ en_offsets e = en_offsets e' /\ en_amask e = en_amask e' /\ d = d'.
Proof.
  intros text e d text' e' d' out R R' Ht Ht' Hk Hk'. pose proof (report_unique _ _ _ _ _ _ quoted_unique R (report_exists text e d)) as E. rewrite (report_unique _ _ _ _ _ _ quoted_unique R' (report_exists text' e' d')) in E. clear R R'.
  apply app_inv_head in E. symmetry in E. apply line_split in E as [-> E]; [|exact Ht | exact Ht']. split; [reflexivity|].
  apply app_inv_head in E. apply (list_readable _ int_readable) in E as [E1 E]. split; [exact E1|]. apply app_inv_head in E. apply (list_readable _ int_readable) in E as [E2 E]. split; [exact E2|]. apply app_inv_head in E.
  assert (TL : forall l r, print_result show_token l ++ r = (str "[" ++ show_elems show_token l ++ str "]") ++ [10%N] ++ r) by (intros; unfold print_result; rewrite <- !app_assoc; reflexivity).
  rewrite (TL (en_tokens e)), (TL (en_tokens e')) in E. apply line_split in E as [_ E]; [|apply tokens_one_line; assumption ..].
  apply app_inv_head in E. apply (list_readable _ word_readable) in E as [E3 E]. split; [exact E3|]. apply app_inv_head in E. apply (list_readable _ offsets_readable) in E as [E4 E]. split; [exact E4|].
  apply app_inv_head in E. apply (list_readable _ int_readable) in E as [E5 E]. split; [exact E5|]. apply app_inv_head in E. apply (list_readable _ int_readable) in E as [_ E]. apply app_inv_head in E. apply app_inv_tail in E. exact E.
Qed.
Print Assumptions C115_faithful.
(** *** Against the reference implementation *)
(** The tokens are printed as Python prints them exactly if none has a backslash, or a single quote among other characters. *)
Lemma escape_length (q : N) t : length t + (if existsb (fun c => ((c =? q) || (c =? 92))%N) t then 1 else 0) <= length (flat_map (fun c => if ((c =? q) || (c =? 92))%N then [92%N; c] else [c]) t).
Proof. induction t as [|c t IH]; [cbn; lia|]. cbn [flat_map existsb length]. rewrite app_length. destruct ((c =? q) || (c =? 92))%N; cbn [length orb]; [destruct (existsb _ t); lia | lia]. Qed.
Lemma escape_none (q : N) t : ~ In q t -> ~ In 92%N t -> flat_map (fun c => if ((c =? q) || (c =? 92))%N then [92%N; c] else [c]) t = t.
Proof.
  induction t as [|c t IH]; intros Hq Hb; [reflexivity|]. cbn [flat_map]. cbn [In] in Hq, Hb. replace ((c =? q) || (c =? 92))%N with false by lia. cbn [app]. f_equal. apply IH; tauto.
Qed.
Theorem C115_quotes : forall t, (exists b, quoted t b /\ py_string t b) <-> plainly_quoted t.
Proof.
  intros t. split.
  - intros (b & Hb & q & Hq & Eb). assert (L : length b = length t + 2) by (destruct Hb as [[-> ->]|[_ ->]]; [reflexivity | cbn [length]; rewrite app_length; cbn; lia]).
    rewrite Eb in L. cbn [length] in L. rewrite app_length in L. cbn [length] in L. pose proof (escape_length q t) as EL. destruct (existsb _ t) eqn:Ex; [lia|].
    assert (N1 : forall c, In c t -> c <> q /\ c <> 92%N). { intros c Hc. assert (Q : ((c =? q) || (c =? 92))%N = false). { destruct ((c =? q) || (c =? 92))%N eqn:Q; [|reflexivity]. rewrite <- Ex. symmetry. apply existsb_exists. exists c. split; [exact Hc | exact Q]. } lia. }
    split; [intros Q; destruct (N1 _ Q); congruence|]. destruct Hq as [Hs Hd|Hs]; [|left; intros Q; destruct (N1 _ Q); congruence].
    right. destruct Hb as [[-> _]|[_ Hb]]; [reflexivity|]. rewrite Hb in Eb. discriminate.
  - intros [Hb [Hq | ->]].
    + exists (39%N :: t ++ [39%N]). split; [right; split; [intros ->; apply Hq; left; reflexivity | reflexivity]|]. exists 39%N. split; [apply pq_single; left; exact Hq|]. rewrite escape_none by assumption. reflexivity.
    + exists [34; 39; 34]%N. split; [left; split; reflexivity|]. exists 34%N. split; [apply pq_double; [left; reflexivity | intros [Q|[]]; discriminate]|]. reflexivity.
Qed.
Print Assumptions C115_quotes.
Lemma py_unique t b b' : py_string t b -> py_string t b' -> b = b'.
Proof. intros (q & Hq & ->) (q' & Hq' & ->). destruct Hq, Hq'; try reflexivity; tauto. Qed.
(** So for such tokens the program's output is the script's, when the results are the same. *)
Theorem C115_identical : forall text e d out, Forall plainly_quoted (en_tokens e) -> (report quoted text e d out <-> report py_string text e d out).
Proof.
  intros text e d out H. rewrite Forall_forall in H.
  split; intros [i ty tk w o m H1 H2 H3 H4 H5 H6]; constructor; try assumption; (eapply listing_weaken; [|exact H3]); intros x y Hx Hy; destruct (proj2 (C115_quotes x) (H x Hx)) as (b & B1 & B2).
  - rewrite (quoted_unique _ _ _ Hy B1). exact B2.
  - rewrite (py_unique _ _ _ Hy B2). exact B1.
Qed.
Print Assumptions C115_identical.
(** Not so in general: for the token don't the outputs differ although the results are the same. *)
Theorem C115_identical_refuted : exists e, (forall text d out, ~ (report quoted text e d out /\ report py_string text e d out)) /\ en_tokens e = [str "don't"] /\ Forall ascii_printable (en_tokens e).
Proof.
  exists (mkEnc [7%Z] [0%Z] [str "don't"] [Some 0] [(0, 5)] [0%Z] [1%Z] []). split; [|split; [reflexivity | constructor; [|constructor]; unfold ascii_printable; cbn; repeat (apply Forall_cons; [lia|]); apply Forall_nil]]. intros text d out [R R'].
  inversion R as [i ty tk w o m H1 H2 H3 H4 H5 H6 Eo]. inversion R' as [i' ty' tk' w' o' m' H1' H2' H3' H4' H5' H6' Eo']. rewrite <- Eo' in Eo. cbn [en_ids en_type_ids en_tokens] in *.
  rewrite (listing_unique _ _ _ _ numeral_unique H1 H1'), (listing_unique _ _ _ _ numeral_unique H2 H2') in Eo. unfold line in Eo. rewrite <- !app_assoc in Eo.
  do 9 apply app_inv_head in Eo.
  destruct H3 as (xs & F & Ex). destruct H3' as (ys & F' & Ey). inversion F as [|? x ? xs' Hx F2]; subst. inversion F2; subst. inversion F' as [|? y ? ys' Hy F2']; subst. inversion F2'; subst. cbn [join] in Eo.
  destruct Hx as [[Hx _]|[_ ->]]; [discriminate|]. destruct Hy as (q & Hq & ->). destruct Hq as [Hs Hd|[Hs|Hs]]; [discriminate Eo | apply Hs; cbn; tauto | cbn in Hs; lia].
Qed.
Print Assumptions C115_identical_refuted.
(** a run on a small bert-base-uncased *)
Definition run_text : bytes := str "Playing [MASK] chess!".
Definition run_lines : list String.string :=
  ["Encoding: Playing [MASK] chess!"; "ids: [2, 5, 6, 4, 7, 8, 3, 0]"; "type_ids: [0, 0, 0, 0, 0, 0, 0, 0]";
   "tokens: ['[CLS]', 'play', '##ing', '[MASK]', 'chess', '!', '[SEP]', '[PAD]']"; "words: [None, 0, 0, 1, 2, 3, None, 0]";
   "offsets: [(0, 0), (0, 4), (4, 7), (8, 14), (15, 20), (20, 21), (0, 0), (0, 0)]"; "attention_mask: [1, 1, 1, 1, 1, 1, 1, 0]";
   "Decoding: [2, 5, 6, 4, 7, 8, 3, 0]"; "tokens: playing chess!"].
Example C115_case : run_main test_env 20 (fun p => if leqb p (str "bert/tokenizer.json") then Some (str "{}") else None) (fun _ => Some (render base_config)) [str "bert"; run_text] = (flat_map (fun l => str l ++ [10%N]) run_lines, Ok tt).
Proof. vm_compute. reflexivity. Qed.
Example C115_quote_case : show_token [39%N] = str """'""" /\ show_int (-120) = str "-120" /\ show_word None = str "None".
Proof. repeat split. Qed.
