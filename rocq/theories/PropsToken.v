(** C117: the objects of "added_tokens". Specification: TokenSpec.v. *)
From Verif Require Import Base BaseFacts Common AddedVocab Tokenizer Config EscSpec EscProofs ConfigSpec ConfigProofs PropsConfig PropsNull TokenSpec.
From Coq Require Import ZArith Lia.

Lemma foldM_snoc {A S} (f : S -> A -> res S) l x : forall s, foldM f s (l ++ [x]) = (s' <- foldM f s l ;; f s' x).
Proof.
  induction l as [|y l IH]; intros s; cbn [app foldM bind]; [destruct (f s x); reflexivity|]. destruct (f s y); cbn [bind]; [apply IH | reflexivity..].
Qed.
Lemma latest_same o k v w : latest (o ++ [(str k, v)]) k w <-> w = v.
Proof.
  split.
  - intros (a & b & E & Hn). destruct (rev b) as [|p b'] eqn:Eb.
    + apply (f_equal (@rev _)) in Eb. rewrite rev_involutive in Eb. subst b. apply app_inj_tail in E as [_ E]. congruence.
    + apply (f_equal (@rev _)) in Eb. rewrite rev_involutive in Eb. cbn [rev] in Eb. subst b. exfalso. apply Hn.
      change ((str k, w) :: rev b' ++ [p]) with (((str k, w) :: rev b') ++ [p]) in E. rewrite app_assoc in E. apply app_inj_tail in E as [_ <-]. rewrite map_app. apply in_or_app. right. left. reflexivity.
  - intros ->. exists o, []. split; [reflexivity | intros []].
Qed.
Lemma latest_other o k p v w : p <> str k -> latest (o ++ [(p, v)]) k w <-> latest o k w.
Proof.
  intros Hp. split.
  - intros (a & b & E & Hn). destruct (rev b) as [|q b'] eqn:Eb; apply (f_equal (@rev _)) in Eb; rewrite rev_involutive in Eb; cbn [rev] in Eb; subst b.
    + apply app_inj_tail in E as [_ E]. congruence.
    + change ((str k, w) :: rev b' ++ [q]) with (((str k, w) :: rev b') ++ [q]) in E. rewrite app_assoc in E. apply app_inj_tail in E as [-> _]. exists a, (rev b'). split; [reflexivity|].
      intros Hi. apply Hn. rewrite map_app. apply in_or_app. left. exact Hi.
  - intros (a & b & -> & Hn). exists a, (b ++ [(p, v)]). split; [rewrite <- app_assoc; reflexivity|]. rewrite map_app. intros Hi. apply in_app_or in Hi as [Hi|[Hi|[]]]; [exact (Hn Hi) | cbn in Hi; congruence].
Qed.
Lemma lacks_snoc o k p v : lacks (o ++ [(p, v)]) k <-> lacks o k /\ p <> str k.
Proof.
  unfold lacks. rewrite map_app. split.
  - intros H. split; [intros Hi; apply H; apply in_or_app; left; exact Hi | intros ->; apply H; apply in_or_app; right; left; reflexivity].
  - intros [H1 H2] Hi. apply in_app_or in Hi as [Hi|[Hi|[]]]; [exact (H1 Hi) | exact (H2 Hi)].
Qed.
Lemma keyed_same {A} (R : json -> A -> Prop) d o k v x : keyed R d (o ++ [(str k, v)]) k x <-> R v x.
Proof.
  unfold keyed. rewrite lacks_snoc. split.
  - intros [[[_ H] _]|(w & Hw & HR)]; [congruence|]. apply latest_same in Hw. subst w. exact HR.
  - intros H. right. exists v. split; [apply latest_same; reflexivity | exact H].
Qed.
Lemma keyed_other {A} (R : json -> A -> Prop) d o k p v x : p <> str k -> keyed R d (o ++ [(p, v)]) k x <-> keyed R d o k x.
Proof.
  intros Hp. unfold keyed. rewrite lacks_snoc. split.
  - intros [[[H _] Hx]|(w & Hw & HR)]; [left; auto|]. right. exists w. split; [apply (latest_other o k p v w Hp); exact Hw | exact HR].
  - intros [[H Hx]|(w & Hw & HR)]; [left; auto|]. right. exists w. split; [apply (latest_other o k p v w Hp); exact Hw | exact HR].
Qed.

Lemma get_int_iff v n : get_int v = Ok n <-> as_int v n.
Proof.
  unfold as_int, get_int, to_int. split.
  - destruct v as [| |z| | | |]; try discriminate. destruct ((-9223372036854775808 <=? z) && (z <=? 9223372036854775807))%Z eqn:E; [|discriminate]. intros H.
    exists z, ((z + 2147483648) / 4294967296)%Z. assert (n = (z + 2147483648) mod 4294967296 - 2147483648)%Z by congruence.
    pose proof (Z.div_mod (z + 2147483648) 4294967296). pose proof (Z.mod_pos_bound (z + 2147483648) 4294967296). split; [reflexivity|].
    change (2 ^ 63)%Z with 9223372036854775808%Z. change (2 ^ 32)%Z with 4294967296%Z. change (2 ^ 31)%Z with 2147483648%Z. lia.
  - intros (z & q & -> & H1 & H2 & H3). change (2 ^ 63)%Z with 9223372036854775808%Z in *. change (2 ^ 32)%Z with 4294967296%Z in *. change (2 ^ 31)%Z with 2147483648%Z in *.
    replace ((-9223372036854775808 <=? z) && (z <=? 9223372036854775807))%Z with true by lia. f_equal. subst z.
    replace (n + q * 4294967296 + 2147483648)%Z with (n + 2147483648 + q * 4294967296)%Z by lia. rewrite Z.mod_add by lia. rewrite Z.mod_small by lia. lia.
Qed.
Lemma get_text_iff v s : get_string v = Ok s <-> as_text v s.
Proof.
  unfold as_text. split.
  - destruct v as [| | | |raw| |]; try discriminate. cbn [get_string]. intros H. exists raw. split; [reflexivity|]. apply unescape_iff. destruct (unescape raw); congruence.
  - intros (raw & -> & H). cbn [get_string]. apply unescape_iff in H. rewrite H. reflexivity.
Qed.
Lemma get_bool_iff v b : get_bool v = Ok b <-> as_bool v b.
Proof. unfold as_bool. split; [destruct v; try discriminate; cbn; congruence | intros ->; reflexivity]. Qed.

Lemma leqb_neq a b : leqb a b = false -> a <> b.
Proof. intros H ->. rewrite leqb_refl in H. discriminate. Qed.
Ltac snoc :=
  repeat match goal with
  | |- _ /\ _ => split
  | |- keyed ?R _ (_ ++ [(str ?k, _)]) ?k _ => apply (keyed_same R)
  | |- keyed ?R _ (_ ++ [(?p, _)]) ?k _ => apply (keyed_other R); [first [assumption | apply leqb_neq; vm_compute; reflexivity]|]
  end; try assumption.
Lemma fold_object o : forall t, foldM added_token_key default_added_token o = Ok t -> token_object o t /\ token_typed o.
Proof.
  induction o as [|[k v] o IH] using rev_ind; intros t H.
  - cbn [foldM] in H. assert (t = default_added_token) by congruence. subst t. split; [|intros k v e []].
    assert (L : forall k, lacks [] k) by (intros k []). repeat split; left; (split; [apply L | reflexivity]).
  - rewrite foldM_snoc in H. destruct (foldM added_token_key default_added_token o) as [t0| | |]; cbn [bind] in H; try discriminate. destruct (IH t0 eq_refl) as [(A1 & A2 & A3 & A4 & A5 & A6 & A7) Hty]. clear IH.
    assert (T : (forall e, In e added_keys -> k = str (fst e) -> of_kind (snd e) v) -> token_typed (o ++ [(k, v)])).
    { intros Hk k' v' e Hin. apply in_app_or in Hin as [Hin|[Hin|[]]]; [exact (Hty k' v' e Hin)|]. injection Hin as <- <-. apply Hk. }
    unfold added_token_key in H. unfold token_object.
    destruct (leqb k (str "id")) eqn:E1.
    { apply leqb_eq in E1. subst k. destruct (get_int v) as [n| | |] eqn:Ev; cbn [bind] in H; try discriminate. inversion H; subst t; clear H. apply get_int_iff in Ev. cbn [at_id at_content at_single_word at_lstrip at_rstrip at_normalized at_special].
      split; [snoc|]. apply T. destruct Ev as (z & q & -> & Hz & _). intros e He. in_cases He; subst e; cbn [fst snd]; intros Hk; try (vm_compute in Hk; discriminate Hk). exists z. auto. }
    destruct (leqb k (str "content")) eqn:E2.
    { apply leqb_eq in E2. subst k. destruct (get_string v) as [n| | |] eqn:Ev; cbn [bind] in H; try discriminate. inversion H; subst t; clear H. apply get_text_iff in Ev. cbn [at_id at_content at_single_word at_lstrip at_rstrip at_normalized at_special].
      split; [snoc|]. apply T. destruct Ev as (z & -> & Hz). intros e He. in_cases He; subst e; cbn [fst snd]; intros Hk; try (vm_compute in Hk; discriminate Hk). exists z, n. auto. }
    assert (B : forall b, get_bool v = Ok b -> forall K, In (K, KBool) added_keys -> k = str K -> forall e, In e added_keys -> k = str (fst e) -> of_kind (snd e) v).
    { intros b Hb K HK -> e He Hk. apply get_bool_iff in Hb. in_cases HK; injection HK as <-; in_cases He; subst e; cbn [fst snd] in *; try (vm_compute in Hk; discriminate Hk); exists b; exact Hb. }
    Ltac bool_key H T B E k v K := apply leqb_eq in E; subst k; let b := fresh "b" in let Ev := fresh "Ev" in destruct (get_bool v) as [b| | |] eqn:Ev; cbn [bind] in H; try discriminate;
      inversion H; clear H; pose proof (proj1 (get_bool_iff _ _) Ev) as Ev'; cbn [at_id at_content at_single_word at_lstrip at_rstrip at_normalized at_special];
      split; [snoc | apply T; apply (B b eq_refl K); [cbn [In added_keys]; tauto | reflexivity]].
    destruct (leqb k (str "single_word")) eqn:E3; [bool_key H T B E3 k v "single_word"|].
    destruct (leqb k (str "lstrip")) eqn:E4; [bool_key H T B E4 k v "lstrip"|].
    destruct (leqb k (str "rstrip")) eqn:E5; [bool_key H T B E5 k v "rstrip"|].
    destruct (leqb k (str "normalized")) eqn:E6; [bool_key H T B E6 k v "normalized"|].
    destruct (leqb k (str "special")) eqn:E7; [bool_key H T B E7 k v "special"|].
    inversion H; subst t. apply leqb_neq in E1, E2, E3, E4, E5, E6, E7. split; [snoc|]. apply T. intros e He Hk. in_cases He; subst e; cbn [fst] in Hk; congruence.
Qed.
Lemma typed_fold o : token_typed o -> exists t, foldM added_token_key default_added_token o = Ok t.
Proof.
  intros H. assert (G : forall t, exists t', foldM added_token_key t o = Ok t'); [|apply G].
  induction o as [|[k v] o IH]; intros t; [eexists; reflexivity|]. cbn [foldM].
  assert (Hk : forall e, In e added_keys -> k = str (fst e) -> of_kind (snd e) v) by (intros e He Hk; exact (H k v e (or_introl eq_refl) He Hk)).
  assert (exists t', added_token_key t (k, v) = Ok t') as (t' & ->).
  { unfold added_token_key.
    destruct (leqb k (str "id")) eqn:E1. { apply leqb_eq in E1. destruct (Hk ("id", KInt) ltac:(cbn; tauto) E1) as (z & -> & Hz). cbn [get_int]. change (2 ^ 63)%Z with 9223372036854775808%Z in Hz. replace ((-9223372036854775808 <=? z) && (z <=? 9223372036854775807))%Z with true by lia. eexists; reflexivity. }
    destruct (leqb k (str "content")) eqn:E2. { apply leqb_eq in E2. destruct (Hk ("content", KStr) ltac:(cbn; tauto) E2) as (raw & s & -> & Hs). rewrite (proj2 (get_text_iff _ s)) by (exists raw; auto). eexists; reflexivity. }
    destruct (leqb k (str "single_word")) eqn:E3. { apply leqb_eq in E3. destruct (Hk ("single_word", KBool) ltac:(cbn; tauto) E3) as (b & ->). eexists; reflexivity. }
    destruct (leqb k (str "lstrip")) eqn:E4. { apply leqb_eq in E4. destruct (Hk ("lstrip", KBool) ltac:(cbn; tauto) E4) as (b & ->). eexists; reflexivity. }
    destruct (leqb k (str "rstrip")) eqn:E5. { apply leqb_eq in E5. destruct (Hk ("rstrip", KBool) ltac:(cbn; tauto) E5) as (b & ->). eexists; reflexivity. }
    destruct (leqb k (str "normalized")) eqn:E6. { apply leqb_eq in E6. destruct (Hk ("normalized", KBool) ltac:(cbn; tauto) E6) as (b & ->). eexists; reflexivity. }
    destruct (leqb k (str "special")) eqn:E7. { apply leqb_eq in E7. destruct (Hk ("special", KBool) ltac:(cbn; tauto) E7) as (b & ->). eexists; reflexivity. }
    eexists; reflexivity. }
  cbn [bind]. apply IH. intros k' v' e Hin. apply (H k' v' e). right. exact Hin.
Qed.

Lemma latest_unique o k v w : latest o k v -> latest o k w -> v = w.
Proof.
  induction o as [|[p u] o IH] using rev_ind; [intros (a & b & E & _); destruct a; discriminate|].
  destruct (leqb p (str k)) eqn:E.
  - apply leqb_eq in E. subst p. rewrite !latest_same. congruence.
  - apply leqb_neq in E. rewrite !latest_other by exact E. exact IH.
Qed.
Lemma latest_in o k v : latest o k v -> In (str k) (map fst o).
Proof. intros (a & b & -> & _). rewrite map_app. apply in_or_app. right. left. reflexivity. Qed.
Lemma keyed_unique {A} (R : json -> A -> Prop) d o k x y : (forall v a b, R v a -> R v b -> a = b) -> keyed R d o k x -> keyed R d o k y -> x = y.
Proof.
  intros HR [[H1 ->]|(v & Hv & H1)] [[H2 ->]|(w & Hw & H2)]; [reflexivity | destruct (H1 (latest_in _ _ _ Hw)) | destruct (H2 (latest_in _ _ _ Hv))|].
  rewrite (latest_unique _ _ _ _ Hv Hw) in H1. eapply HR; eassumption.
Qed.

(** An object with well-typed keys denotes exactly one token. *)
Theorem C117_one_token : forall o, token_typed o -> exists t, forall x, token_object o x <-> x = t.
Proof.
  intros o H. destruct (typed_fold o H) as (t & Ht). destruct (fold_object o t Ht) as [T _]. exists t. intros x. split; [|intros ->; exact T].
  intros X. destruct t as [t1 t2 t3 t4 t5 t6 t7], x as [x1 x2 x3 x4 x5 x6 x7]. unfold token_object in *. cbn [at_id at_content at_single_word at_lstrip at_rstrip at_normalized at_special] in *.
  destruct T as (T1 & T2 & T3 & T4 & T5 & T6 & T7), X as (X1 & X2 & X3 & X4 & X5 & X6 & X7).
  assert (UI : forall v a b, as_int v a -> as_int v b -> a = b) by (intros v a b Ha Hb; apply get_int_iff in Ha, Hb; congruence).
  assert (UT : forall v a b, as_text v a -> as_text v b -> a = b) by (intros v a b Ha Hb; apply get_text_iff in Ha, Hb; congruence).
  assert (UB : forall v a b, as_bool v a -> as_bool v b -> a = b) by (intros v a b Ha Hb; apply get_bool_iff in Ha, Hb; congruence).
  f_equal; eapply keyed_unique; eauto.
Qed.
Print Assumptions C117_one_token.

Lemma object_fold o t : token_typed o -> token_object o t -> foldM added_token_key default_added_token o = Ok t.
Proof.
  intros H T. destruct (C117_one_token o H) as (u & Hu). destruct (typed_fold o H) as (t' & Ht). destruct (fold_object o t' Ht) as [T' _]. apply Hu in T, T'. congruence.
Qed.

(** The added tokens of the tokenizer read are those denoted by the objects listed, in their order. *)
Theorem C117_tokens : forall o os toks t, has o "added_tokens" (JArr (map JObj os)) -> Forall token_typed os -> Forall2 token_object os toks ->
  read_config (JObj o) = Ok t -> tz_av t = Some (new_added_vocab toks).
Proof.
  intros o os toks t Ho Hty Hd H. unfold read_config in H. cbv zeta in H. cbn [get_object bind] in H.
  apply bind_ok in H as (tr & _ & H). apply bind_ok in H as (pd & _ & H). apply bind_ok in H as (av & Hav & H).
  apply bind_ok in H as (no & _ & H). apply bind_ok in H as (pt & _ & H). apply bind_ok in H as (md & _ & H). apply bind_ok in H as (de & _ & H). apply bind_ok in H as (pp & _ & H).
  inversion H; subst t. cbn [tz_av].
  rewrite (component_some _ _ _ _ _ Ho ltac:(discriminate) eq_refl) in Hav. cbn [get_array bind] in Hav. unfold with_added_vocabulary in Hav.
  assert (M : mapM (fun j => o0 <- get_object j ;; foldM added_token_key default_added_token o0) (map JObj os) = Ok toks).
  { clear -Hty Hd. induction Hd as [|x y os toks Hxy Hd IH]; [reflexivity|]. inversion Hty; subst. cbn [map mapM get_object bind]. rewrite (object_fold x y) by assumption. cbn [bind]. rewrite IH by assumption. reflexivity. }
  rewrite M in Hav. cbn [bind] in Hav. congruence.
Qed.
Print Assumptions C117_tokens.

(** Two configurations that agree except that their added tokens are written differently (keys in another order, defaults left out or spelled out, further keys) construct the same tokenizer. *)
Lemma same_added os os' toks : Forall token_typed os -> Forall token_typed os' -> Forall2 token_object os toks -> Forall2 token_object os' toks ->
  with_added_vocabulary (map JObj os) = with_added_vocabulary (map JObj os').
Proof.
  intros T T' H H'. assert (M : forall os toks, Forall token_typed os -> Forall2 token_object os toks -> mapM (fun j => o0 <- get_object j ;; foldM added_token_key default_added_token o0) (map JObj os) = Ok toks).
  { clear. intros os toks Hty Hd. induction Hd as [|x y os toks Hxy Hd IH]; [reflexivity|]. inversion Hty; subst. cbn [map mapM get_object bind]. rewrite (object_fold x y) by assumption. cbn [bind]. rewrite IH by assumption. reflexivity. }
  unfold with_added_vocabulary. rewrite (M _ _ T H), (M _ _ T' H'). reflexivity.
Qed.
Theorem C117_same : forall o o' os os' toks,
  (forall top, In top top_keys -> top <> "added_tokens" -> exists j, has o top j /\ has o' top j) ->
  has o "added_tokens" (JArr (map JObj os)) -> has o' "added_tokens" (JArr (map JObj os')) ->
  Forall token_typed os -> Forall token_typed os' -> Forall2 token_object os toks -> Forall2 token_object os' toks ->
  read_config (JObj o) = read_config (JObj o').
Proof.
  intros o o' os os' toks H Ha Ha' T T' D D'. unfold read_config. cbv zeta. cbn [get_object bind].
  assert (K : forall {A} top (g g' : json -> res (option A)), In top top_keys -> top <> "added_tokens" -> (forall j, has o top j -> has o' top j -> g j = g' j) -> component o top g = component o' top g').
  { intros A top g g' Hin Hne Hg. destruct (H top Hin Hne) as (j & H1 & H2). unfold component. rewrite (proj2 (field_has _ _ _) H1), (proj2 (field_has _ _ _) H2). cbn [bind].
    destruct j; cbn [or_default]; [reflexivity | apply Hg; assumption ..]. }
  assert (D1 : forall p k j, has p k j -> json_depth j < S (json_depth (JObj p))) by (intros p k j Hh; apply depth_has in Hh; lia).
  rewrite (K _ "truncation" _ (fun j => l <- get_object j ;; t <- with_truncation l ;; Ok (Some t))); [|cbn; tauto | discriminate | reflexivity]. apply bind_ext; intros tr.
  rewrite (K _ "padding" _ (fun j => l <- get_object j ;; p <- with_padding l ;; Ok (Some p))); [|cbn; tauto | discriminate | reflexivity]. apply bind_ext; intros pd.
  rewrite (component_some _ _ _ _ _ Ha ltac:(discriminate) eq_refl), (component_some _ _ _ _ _ Ha' ltac:(discriminate) eq_refl). cbn [get_array bind]. rewrite (same_added os os' toks T T' D D'). apply bind_ext; intros av.
  rewrite (K _ "normalizer" _ (with_normalizer (S (json_depth (JObj o'))))); [|cbn; tauto | discriminate | intros j Q1 Q2; apply fuel_normalizer; [exact (D1 _ _ _ Q1) | exact (D1 _ _ _ Q2)]]. apply bind_ext; intros no.
  rewrite (K _ "pre_tokenizer" _ (with_pre_tokenizer (S (json_depth (JObj o'))))); [|cbn; tauto | discriminate | intros j Q1 Q2; apply fuel_pre; [exact (D1 _ _ _ Q1) | exact (D1 _ _ _ Q2)]]. apply bind_ext; intros pt.
  rewrite (K _ "model" _ with_model); [|cbn; tauto | discriminate | reflexivity]. apply bind_ext; intros md.
  rewrite (K _ "decoder" _ (with_decoder (S (json_depth (JObj o'))))); [|cbn; tauto | discriminate | intros j Q1 Q2; apply fuel_decoder; [exact (D1 _ _ _ Q1) | exact (D1 _ _ _ Q2)]]. apply bind_ext; intros de.
  rewrite (K _ "post_processor" _ (with_post_processor (S (json_depth (JObj o'))))); [|cbn; tauto | discriminate | intros j Q1 Q2; apply fuel_post; [exact (D1 _ _ _ Q1) | exact (D1 _ _ _ Q2)]].
  reflexivity.
Qed.
Print Assumptions C117_same.
Theorem C117_construct : forall load parse path cfg load' parse' path' cfg' s s' o o' os os' toks, source load path cfg (Some s) -> source load' path' cfg' (Some s') -> parse s = Some (JObj o) -> parse' s' = Some (JObj o') ->
  (forall top, In top top_keys -> top <> "added_tokens" -> exists j, has o top j /\ has o' top j) ->
  has o "added_tokens" (JArr (map JObj os)) -> has o' "added_tokens" (JArr (map JObj os')) ->
  Forall token_typed os -> Forall token_typed os' -> Forall2 token_object os toks -> Forall2 token_object os' toks ->
  construct load parse path cfg = construct load' parse' path' cfg'.
Proof.
  intros load parse path cfg load' parse' path' cfg' s s' o o' os os' toks Hs Hs' Hp Hp' H Ha Ha' T T' D D'.
  rewrite (construct_eq _ _ _ _ _ Hs), (construct_eq _ _ _ _ _ Hs'), Hp, Hp', (C117_same o o' os os' toks H Ha Ha' T T' D D'). reflexivity.
Qed.
Print Assumptions C117_construct.

(** A token given by its text alone, one with its keys in another order, a repeated and an unknown key. *)
Definition short_token : list (bytes * json) := [jkey "content" (jname "[X]")].
Definition odd_token : list (bytes * json) :=
  [jkey "special" (JBool false); jkey "normalized" (JBool false); jkey "comment" JNull; jkey "content" (JStr (str "[\u0058]")); jkey "id" (JInt 4294967296); jkey "normalized" (JBool true)].
Lemma C117_case : token_typed short_token /\ token_typed odd_token /\
  (forall x, token_object short_token x <-> x = mkAt 0 (str "[X]") false false false true false) /\ (forall x, token_object odd_token x <-> x = mkAt 0 (str "[X]") false false false true false).
Proof.
  assert (F1 : foldM added_token_key default_added_token short_token = Ok (mkAt 0 (str "[X]") false false false true false)) by (vm_compute; reflexivity).
  assert (F2 : foldM added_token_key default_added_token odd_token = Ok (mkAt 0 (str "[X]") false false false true false)) by (vm_compute; reflexivity).
  apply fold_object in F1 as [O1 T1]. apply fold_object in F2 as [O2 T2]. split; [exact T1|]. split; [exact T2|].
  split; intros x.
  - destruct (C117_one_token _ T1) as (u & Hu). apply Hu in O1. subst u. apply Hu.
  - destruct (C117_one_token _ T2) as (u & Hu). apply Hu in O2. subst u. apply Hu.
Qed.
