(** Lemmas for PropsConfig.v. *)
From Verif Require Import Base BaseFacts Unicode Common Utils PostProcessor Decoder Normalizer PreTokenizer WordPiece Bpe AddedVocab Tokenizer Config EscSpec EscProofs ConfigSpec.
From Coq Require Import ZifyBool ZifyN.

(** ** Strings *)
Lemma hex_digit_of n : (n < 16)%N -> hex_digit (hex_of n) = Some n.
Proof.
  intros H. unfold hex_of, hex_digit. destruct (N.ltb_spec n 10).
  - replace ((48 <=? 48 + n) && (48 + n <=? 57))%N with true by lia. f_equal. lia.
  - replace ((48 <=? 87 + n) && (87 + n <=? 57))%N with false by lia. replace ((97 <=? 87 + n) && (87 + n <=? 102))%N with true by lia. f_equal. lia.
Qed.
Lemma quote_byte_len b : 1 <= length (quote_byte b).
Proof. unfold quote_byte. destruct (_ || _); [cbn; lia|]. destruct (b <? 32)%N; cbn; lia. Qed.
Lemma unescape_quote_fuel s : forall fuel, length (quote s) < fuel -> unescape_fuel fuel (quote s) = Some s.
Proof.
  induction s as [|b s IH]; intros fuel Hf; [destruct fuel; [cbn in Hf; lia | reflexivity]|].
  change (quote (b :: s)) with (quote_byte b ++ quote s) in *. rewrite app_length in Hf. destruct fuel as [|f]; [lia|]. unfold quote_byte in *.
  destruct ((b =? 34) || (b =? 92))%N eqn:E1; [|destruct (N.ltb_spec b 32) as [E2|E2]].
  - cbn [app length] in *. cbn [unescape_fuel]. change (negb (92 =? 92)%N) with false. cbv iota. replace (b =? 117)%N with false by lia.
    rewrite IH by lia. unfold simple_escape. destruct (N.eqb_spec b 34) as [->|]; [reflexivity|]. replace (b =? 92)%N with true by lia. cbn [option_map]. do 2 f_equal. lia.
  - change (str "\u00") with [92; 117; 48; 48]%N in *. cbn [app length] in *. cbn [unescape_fuel]. change (negb (92 =? 92)%N) with false. cbv iota. change (117 =? 117)%N with true. cbv iota.
    cbn [hex4]. change (hex_digit 48) with (Some 0%N). rewrite !hex_digit_of by (try apply N.mod_lt; try (apply N.div_lt_upper_bound; lia); lia).
    replace (((0 * 16 + 0) * 16 + b / 16) * 16 + b mod 16)%N with b by (rewrite (N.div_mod b 16) at 1 by lia; lia).
    replace ((0xD800 <=? b) && (b <? 0xDC00))%N with false by lia. replace ((0xDC00 <=? b) && (b <? 0xE000))%N with false by lia. rewrite IH by lia.
    cbn [option_map]. f_equal. change (b :: s) with ([b] ++ s). f_equal. unfold utf8_of_cp, is_surrogate, utf8_enc. replace ((0xD800 <=? b) && (b <=? 0xDFFF))%N with false by lia.
    replace (b <? 0x80)%N with true by lia. reflexivity.
  - cbn [app length] in *. cbn [unescape_fuel]. replace (b =? 92)%N with false by lia. cbn [negb]. rewrite IH by lia. reflexivity.
Qed.
Lemma unescape_quote s : unescape (quote s) = Some s.
Proof. apply unescape_quote_fuel. lia. Qed.
Lemma quote_plain s : plain s -> quote s = s.
Proof.
  induction 1 as [|b s (H1 & H2 & H3) _ IH]; [reflexivity|]. change (quote (b :: s)) with (quote_byte b ++ quote s). rewrite IH. unfold quote_byte.
  replace ((b =? 34) || (b =? 92))%N with false by lia. replace (b <? 32)%N with false by lia. reflexivity.
Qed.
Lemma unescape_no_backslash s : forall fuel, Forall (fun b => b <> 92%N) s -> length s < fuel -> unescape_fuel fuel s = Some s.
Proof.
  induction s as [|b s IH]; intros fuel H Hf; (destruct fuel as [|f]; [cbn in Hf; lia|]); [reflexivity|]. cbn [unescape_fuel length] in *. pose proof (Forall_inv H) as Hb. cbn beta in Hb.
  replace (b =? 92)%N with false by lia. cbn [negb]. rewrite IH; [reflexivity | exact (Forall_inv_tail H) | lia].
Qed.
Lemma get_jname s : Forall (fun b => b <> 92%N) (str s) -> get_string (jname s) = Ok (str s).
Proof. intros H. unfold jname, get_string, unescape. rewrite unescape_no_backslash; [reflexivity | exact H | lia]. Qed.
Lemma get_jstr s : get_string (jstr s) = Ok s.
Proof. unfold jstr, get_string. rewrite unescape_quote. reflexivity. Qed.
Lemma get_jint z : int32 z -> get_int (jint z) = Ok z.
Proof.
  unfold int32. intros H. cbn [get_int jint]. replace ((-9223372036854775808 <=? z) && (z <=? 9223372036854775807))%Z with true by lia. f_equal. unfold to_int.
  rewrite Z.mod_small by lia. lia.
Qed.

(** ** Depth *)
Lemma depth_arr l x : In x l -> json_depth x < json_depth (JArr l).
Proof.
  intros H. cbn [json_depth]. assert (G : json_depth x <= (fix go (l : list json) : nat := match l with [] => 0 | x :: r => Nat.max (json_depth x) (go r) end) l); [|lia].
  induction l as [|y l IH]; [destruct H|]. destruct H as [->|H]; [lia | specialize (IH H); lia].
Qed.
Lemma depth_obj l k x : In (k, x) l -> json_depth x < json_depth (JObj l).
Proof.
  intros H. cbn [json_depth]. assert (G : json_depth x <= (fix go (l : list (bytes * json)) : nat := match l with [] => 0 | (_, x) :: r => Nat.max (json_depth x) (go r) end) l); [|lia].
  induction l as [|[k' y] l IH]; [destruct H|]. destruct H as [H|H]; [injection H as -> ->; lia | specialize (IH H); lia].
Qed.
Lemma field_in o k j : field o k = Ok j -> exists k', In (k', j) o.
Proof. unfold field. match goal with |- context [find ?f ?l] => destruct (find f l) as [[k' j']|] eqn:E end; [|discriminate]. cbn. intros [= ->]. apply find_some in E as [E _]. eauto. Qed.

(** ** Outcomes: a value or an exception *)
Definition safe {A} (r : res A) : Prop := match r with Ok _ | Throw _ => True | _ => False end.
Lemma safe_bind {A B} (r : res A) (f : A -> res B) : safe r -> (forall x, r = Ok x -> safe (f x)) -> safe (bind r f).
Proof. destruct r; cbn; auto. Qed.
Lemma safe_mapM {A B} (f : A -> res B) l : (forall x, In x l -> safe (f x)) -> safe (mapM f l).
Proof.
  induction l as [|x l IH]; intros H; [exact I|]. cbn [mapM]. apply safe_bind; [apply H; left; reflexivity|]. intros y _. apply safe_bind; [apply IH; intros z Hz; apply H; right; exact Hz | intros; exact I].
Qed.
Lemma safe_foldM {A S} (f : S -> A -> res S) l : (forall s x, safe (f s x)) -> forall s, safe (foldM f s l).
Proof. intros H. induction l as [|x l IH]; intros s; [exact I|]. cbn [foldM]. apply safe_bind; [apply H | intros; apply IH]. Qed.
Lemma safe_string j : safe (get_string j).
Proof. destruct j; try exact I. unfold get_string. destruct (unescape raw); exact I. Qed.
Lemma safe_bool j : safe (get_bool j). Proof. destruct j; exact I. Qed.
Lemma safe_int j : safe (get_int j). Proof. destruct j; try exact I. unfold get_int. destruct (_ && _); exact I. Qed.
Lemma safe_float j : safe (get_float j). Proof. destruct j; exact I. Qed.
Lemma safe_array j : safe (get_array j). Proof. destruct j; exact I. Qed.
Lemma safe_object j : safe (get_object j). Proof. destruct j; exact I. Qed.
Lemma safe_field o k : safe (field o k). Proof. unfold field. match goal with |- context [find ?f ?l] => destruct (find f l) end; exact I. Qed.
Lemma safe_default {A} (d : A) get j : safe (get j) -> safe (or_default d get j). Proof. destruct j; cbn [or_default]; auto. intros _; exact I. Qed.
Lemma safe_subfield j k : safe (subfield j k). Proof. apply safe_bind; [apply safe_object | intros; apply safe_field]. Qed.
Lemma safe_str o k : safe (str_field o k). Proof. apply safe_bind; [apply safe_field | intros; apply safe_default, safe_string]. Qed.
Lemma safe_ints o k : safe (int_field o k). Proof. apply safe_bind; [apply safe_field | intros; apply safe_default, safe_int]. Qed.
Lemma safe_bools o k : safe (bool_field o k). Proof. apply safe_bind; [apply safe_field | intros; apply safe_default, safe_bool]. Qed.
Lemma safe_list {A} (f : json -> res (option A)) l : (forall x, In x l -> safe (f x)) -> safe (with_list f l).
Proof. intros H. apply safe_bind; [apply safe_mapM; exact H | intros; exact I]. Qed.

Ltac safes := repeat first
  [ exact I | apply safe_str | apply safe_ints | apply safe_bools | apply safe_field | apply safe_string | apply safe_int | apply safe_object | apply safe_array | apply safe_float | apply safe_subfield
  | apply safe_bind; [|intros ? ?] | apply safe_default | match goal with |- safe (if ?b then _ else _) => destruct b end ].

Lemma safe_truncation o : safe (with_truncation o). Proof. unfold with_truncation. safes. Qed.
Lemma safe_padding o : safe (with_padding o).
Proof.
  unfold with_padding. apply safe_bind; [safes|intros d _]. apply safe_bind; [safes|intros sj _]. apply safe_bind.
  - destruct sj; cbn [padding_strategy]; safes. apply safe_foldM. intros s x. safes.
  - intros [s fixed] _. safes.
Qed.
Lemma safe_added l : safe (with_added_vocabulary l).
Proof.
  unfold with_added_vocabulary. apply safe_bind; [|intros; exact I]. apply safe_mapM. intros j _. apply safe_bind; [safes|]. intros o _. apply safe_foldM. intros t [k y]. unfold added_token_key.
  repeat match goal with |- safe (if ?b then _ else _) => destruct b end; try exact I; (apply safe_bind; [first [apply safe_int | apply safe_string | apply safe_bool] | intros; exact I]).
Qed.
Lemma safe_build v n l : forall i m, safe (build_merges v n i l m).
Proof.
  induction l as [|r l IH]; intros i m; [exact I|]. cbn [build_merges]. apply safe_bind; [|intros; apply IH]. destruct (two_fields r) as [[a b]|]; [|exact I]. destruct (sfind a v); [|exact I]. destruct (sfind b v); [|exact I].
  destruct (_ <? _); [exact I|]. destruct (sfind _ v); exact I.
Qed.
Lemma safe_model j : safe (with_model j).
Proof.
  unfold with_model. do 3 (apply safe_bind; [safes|intros ? ?]). apply safe_bind; [safes|intros vj _]. apply safe_bind.
  - apply safe_default. apply safe_bind; [safes|intros l _]. apply safe_foldM. intros ? ?. safes.
  - intros v _. match goal with |- safe (if ?b then _ else _) => destruct b end; [safes|]. match goal with |- safe (if ?b then _ else _) => destruct b end; [|exact I].
    apply safe_bind; [safes|intros mj _]. apply safe_bind; [apply safe_default; apply safe_bind; [safes | intros; apply safe_mapM; intros; apply safe_string]|]. intros ms _.
    do 8 (apply safe_bind; [safes|intros ? _]). apply safe_bind; [|intros; exact I]. unfold new_bpe. apply safe_bind; [apply safe_build | intros; exact I].
Qed.

Lemma list_depth o k a l x fuel j : get_object j = Ok o -> field o k = Ok a -> get_array a = Ok l -> In x l -> json_depth j < S fuel -> json_depth x < fuel.
Proof.
  intros H1 H2 H3 H4 H5. destruct j; try discriminate. injection H1 as ->. destruct a; try discriminate. injection H3 as ->. apply field_in in H2 as (k' & H2).
  pose proof (depth_obj _ _ _ H2). pose proof (depth_arr _ _ H4). lia.
Qed.
Ltac safe_component IH :=
  apply safe_bind; [apply safe_object|intros o Ho]; apply safe_bind; [apply safe_field|intros tj _]; apply safe_bind; [apply safe_string|intros ty _];
  repeat match goal with |- safe (if ?b then _ else _) => destruct b end; safes; (apply safe_mapM; intros z Hz; apply IH; eapply list_depth; eassumption).
Lemma safe_normalizer fuel : forall j, json_depth j < fuel -> safe (with_normalizer fuel j).
Proof. induction fuel as [|f IH]; intros j Hj; [lia|]. cbn [with_normalizer]. safe_component IH. Qed.
Lemma safe_pre fuel : forall j, json_depth j < fuel -> safe (with_pre_tokenizer fuel j).
Proof. induction fuel as [|f IH]; intros j Hj; [lia|]. cbn [with_pre_tokenizer]. safe_component IH. Qed.
Lemma safe_decoder fuel : forall j, json_depth j < fuel -> safe (with_decoder fuel j).
Proof. induction fuel as [|f IH]; intros j Hj; [lia|]. cbn [with_decoder]. safe_component IH. Qed.
Lemma safe_template j : safe (template_list j).
Proof.
  unfold template_list. apply safe_default. apply safe_bind; [safes|intros l _]. apply safe_bind; [|intros; exact I]. apply safe_mapM. intros x _. unfold template_pieces.
  apply safe_bind; [safes|intros o _]. apply safe_mapM. intros p _. safes.
Qed.
Lemma safe_post fuel : forall j, json_depth j < fuel -> safe (with_post_processor fuel j).
Proof.
  induction fuel as [|f IH]; intros j Hj; [lia|]. cbn [with_post_processor].
  apply safe_bind; [apply safe_object|intros o Ho]; apply safe_bind; [apply safe_field|intros tj _]; apply safe_bind; [apply safe_string|intros ty _].
  destruct (leqb ty _).
  - apply safe_bind; [safes|intros sj _]. apply safe_bind; [apply safe_template|intros single _]. apply safe_bind; [safes|intros pj _]. apply safe_bind; [apply safe_template|intros _ _].
    apply safe_bind; [safes|intros spj _]. apply safe_bind; [|intros; exact I]. apply safe_default. apply safe_bind; [safes|intros l _]. apply safe_mapM. intros p _. unfold template_special.
    do 3 (apply safe_bind; [safes|intros ? _]). apply safe_bind; [safes|intros idl _]. apply safe_bind; [apply safe_mapM; intros; apply safe_int|intros ? _].
    do 2 (apply safe_bind; [safes|intros ? _]). apply safe_bind; [apply safe_mapM; intros; apply safe_string|intros; exact I].
  - destruct (leqb ty _).
    + apply safe_bind; [safes|intros a Ha]. apply safe_bind; [safes|intros l Hl]. apply safe_bind; [|intros; exact I]. apply safe_list. intros x Hx. apply IH. eapply list_depth; eassumption.
    + destruct (leqb ty _); safes.
Qed.

Lemma safe_read doc : safe (read_config doc).
Proof.
  unfold read_config. cbv zeta. apply safe_bind; [apply safe_object|intros o Ho]. destruct doc; try discriminate. injection Ho as ->.
  assert (HC : forall A k (get : json -> res (option A)), (forall j, json_depth j < S (json_depth (JObj o)) -> safe (get j)) -> safe (component o k get)).
  { intros A k get H. unfold component. destruct (field o k) as [j| | |] eqn:E; cbn [bind]; try exact I.
    - apply safe_default. apply H. apply field_in in E as (k' & E). pose proof (depth_obj _ _ _ E). lia.
    - pose proof (safe_field o k) as HS. rewrite E in HS. exact HS.
    - pose proof (safe_field o k) as HS. rewrite E in HS. exact HS. }
  apply safe_bind; [apply HC; intros; apply safe_bind; [safes|intros; apply safe_bind; [apply safe_truncation|intros; exact I]]|intros tr _].
  apply safe_bind; [apply HC; intros; apply safe_bind; [safes|intros; apply safe_bind; [apply safe_padding|intros; exact I]]|intros pd _].
  apply safe_bind; [apply HC; intros; apply safe_bind; [safes|intros; apply safe_bind; [apply safe_added|intros; exact I]]|intros av _].
  apply safe_bind; [apply HC; intros; apply safe_normalizer; assumption|intros no _].
  apply safe_bind; [apply HC; intros; apply safe_pre; assumption|intros pt _].
  apply safe_bind; [apply HC; intros; apply safe_model|intros md _].
  apply safe_bind; [apply HC; intros; apply safe_decoder; assumption|intros de _].
  apply safe_bind; [apply HC; intros; apply safe_post; assumption|intros pp _]. exact I.
Qed.

(** ** Looking up keys *)
Lemma leqb_iff a b : leqb a b = true <-> a = b.
Proof. destruct (leqb_spec a b); split; congruence. Qed.
Lemma field_has o k j : field o k = Ok j <-> has o k j.
Proof.
  unfold field. split.
  - induction o as [|[k' j'] o IH]; cbn [find]; [discriminate|]. cbn [fst]. destruct (leqb k' (str k)) eqn:E.
    + apply leqb_iff in E. subst. cbn. intros [= ->]. exists [], o. split; [reflexivity | intros []].
    + intros H. destruct (IH H) as (b & a & -> & Hb). exists ((k', j') :: b), a. split; [reflexivity|]. cbn. intros [->|Hi]; [|exact (Hb Hi)].
      assert (leqb (str k) (str k) = true) by (apply leqb_iff; reflexivity). congruence.
  - intros (b & a & -> & Hb). induction b as [|[k' j'] b IH]; cbn [app find fst].
    + replace (leqb (str k) (str k)) with true by (symmetry; apply leqb_iff; reflexivity). reflexivity.
    + destruct (leqb k' (str k)) eqn:E; [apply leqb_iff in E; exfalso; apply Hb; left; exact E|]. apply IH. intros Hi. apply Hb. right. exact Hi.
Qed.
Lemma field_lacks o k : lacks o k -> field o k = Throw SimdjsonError.
Proof.
  intros H. destruct (field o k) as [j|e| |] eqn:E; try (pose proof (safe_field o k) as HS; rewrite E in HS; destruct HS).
  - apply field_has in E as (b & a & -> & _). exfalso. apply H. rewrite map_app. apply in_or_app. right. left. reflexivity.
  - unfold field in E. revert E. match goal with |- context [find ?f ?l] => destruct (find f l) end; [discriminate|]. congruence.
Qed.
Lemma bind_ok {A B} (r : res A) (f : A -> res B) y : bind r f = Ok y -> exists x, r = Ok x /\ f x = Ok y.
Proof. destruct r; cbn; try discriminate. eauto. Qed.

(** present, and null or of the kind *)
Definition good_key (o : list (bytes * json)) (e : String.string * kind) : Prop := exists v, has o (fst e) v /\ (v = JNull \/ of_kind (snd e) v).
Lemma good_not_bad o e : good_key o e -> bad_key o e -> False.
Proof.
  intros (v & Hv & Hk) [Hl | (v' & Hv' & Hn & Hb)].
  - apply field_has in Hv. rewrite (field_lacks _ _ Hl) in Hv. discriminate.
  - apply field_has in Hv, Hv'. rewrite Hv in Hv'. injection Hv' as ->. destruct Hk; contradiction.
Qed.
Lemma get_default_good {A} (d : A) get k o key v x : field o key = Ok v -> or_default d get v = Ok x -> (forall j y, get j = Ok y -> of_kind k j) -> good_key o (key, k).
Proof.
  intros Hf Hx Hg. exists v. split; [apply field_has; exact Hf|]. destruct v; [left; reflexivity | right; eapply Hg; exact Hx ..].
Qed.
Lemma get_string_kind j y : get_string j = Ok y -> is_str j.
Proof. destruct j; try discriminate. cbn [get_string]. destruct (unescape raw) as [s|] eqn:E; [|discriminate]. intros _. exists raw, s. split; [reflexivity | apply unescape_iff; exact E]. Qed.
Lemma get_bool_kind j y : get_bool j = Ok y -> of_kind KBool j.
Proof. destruct j; try discriminate. intros _. eexists. reflexivity. Qed.
Lemma get_int_kind j y : get_int j = Ok y -> is_int j.
Proof.
  destruct j; try discriminate. cbn [get_int]. intros H. match type of H with (if ?b then _ else _) = _ => destruct b eqn:E; [|discriminate] end. eexists. split; [reflexivity|].
  apply Bool.andb_true_iff in E as [E1 E2]. apply Z.leb_le in E1, E2. change (2 ^ 63)%Z with 9223372036854775808%Z. lia.
Qed.
Lemma get_float_kind j y : get_float j = Ok y -> of_kind KNum j.
Proof. destruct j; try discriminate; intros _; [left|right]; eexists; reflexivity. Qed.
Lemma get_array_eq j l : get_array j = Ok l -> j = JArr l.
Proof. destruct j; try discriminate. intros [= ->]. reflexivity. Qed.
Lemma get_object_eq j l : get_object j = Ok l -> j = JObj l.
Proof. destruct j; try discriminate. intros [= ->]. reflexivity. Qed.
Lemma mapM_all {A B} (f : A -> res B) (P : A -> Prop) l : (forall x y, f x = Ok y -> P x) -> forall r, mapM f l = Ok r -> Forall P l.
Proof.
  intros H. induction l as [|x l IH]; intros r E; [constructor|]. cbn [mapM] in E. apply bind_ok in E as (y & E1 & E). apply bind_ok in E as (ys & E2 & E).
  apply Forall_cons; [eapply H; exact E1 | eapply IH; exact E2].
Qed.
Lemma foldM_all {A S} (f : S -> A -> res S) (P : A -> Prop) l : (forall s x y, f s x = Ok y -> P x) -> forall s r, foldM f s l = Ok r -> Forall P l.
Proof.
  intros H. induction l as [|x l IH]; intros s r E; [constructor|]. cbn [foldM] in E. apply bind_ok in E as (y & E1 & E). apply Forall_cons; [eapply H; exact E1 | eapply IH; exact E].
Qed.
Lemma str_good o k x : str_field o k = Ok x -> good_key o (k, KStr).
Proof. intros H. apply bind_ok in H as (v & H1 & H2). eapply get_default_good; eauto. exact get_string_kind. Qed.
Lemma int_good o k x : int_field o k = Ok x -> good_key o (k, KInt).
Proof. intros H. apply bind_ok in H as (v & H1 & H2). eapply get_default_good; eauto. exact get_int_kind. Qed.
Lemma bool_good o k x : bool_field o k = Ok x -> good_key o (k, KBool).
Proof. intros H. apply bind_ok in H as (v & H1 & H2). eapply get_default_good; eauto. exact get_bool_kind. Qed.
Lemma sub_str_good v k s x : subfield v k = Ok s -> get_string s = Ok x -> of_kind (KIn k) v.
Proof.
  intros H1 H2. apply bind_ok in H1 as (l & H1 & H3). apply get_object_eq in H1. exists l. split; [exact H1|]. exists s. split; [apply field_has; exact H3 | eapply get_string_kind; exact H2].
Qed.
Lemma sub_good o k k' v x : field o k = Ok v -> or_default [] (fun j => s <- subfield j k' ;; get_string s) v = Ok x -> good_key o (k, KIn k').
Proof. intros H1 H2. eapply get_default_good; eauto. intros j y H. apply bind_ok in H as (s & H3 & H4). eapply sub_str_good; eauto. Qed.
Lemma ids_kind l (f : smap Z -> bytes * json -> res (smap Z)) s r : (forall s p, f s p = (n <- get_int (snd p) ;; Ok (sinsert (fst p) n s))) -> foldM f s l = Ok r -> Forall (fun p => is_int (snd p)) l.
Proof. intros Hf. apply foldM_all. intros s' x y H. rewrite Hf in H. apply bind_ok in H as (n & H & _). eapply get_int_kind; exact H. Qed.
Lemma vocab_good o v x : field o "vocab" = Ok v -> or_default [] (fun j => l <- get_object j ;; get_map_ints_from_json l) v = Ok x -> good_key o ("vocab", KIds).
Proof.
  intros H1 H2. eapply get_default_good; eauto. intros j y H. apply bind_ok in H as (l & H3 & H4). apply get_object_eq in H3. exists l. split; [exact H3|].
  eapply ids_kind; [|exact H4]. reflexivity.
Qed.
Lemma strs_good o v x : field o "merges" = Ok v -> or_default [] (fun j => l <- get_array j ;; mapM get_string l) v = Ok x -> good_key o ("merges", KStrs).
Proof.
  intros H1 H2. eapply get_default_good; eauto. intros j y H. apply bind_ok in H as (l & H3 & H4). apply get_array_eq in H3. exists l. split; [exact H3|].
  eapply mapM_all; [|exact H4]. intros; eapply get_string_kind; eauto.
Qed.
Lemma num_good o k v d x : field o k = Ok v -> or_default d get_float v = Ok x -> good_key o (k, KNum).
Proof. intros H1 H2. eapply get_default_good; eauto. exact get_float_kind. Qed.
Lemma strategy_good o v x : field o "strategy" = Ok v -> padding_strategy v = Ok x -> good_key o ("strategy", KStrategy).
Proof.
  intros H1 H2. exists v. split; [apply field_has; exact H1|]. destruct v; cbn [padding_strategy] in H2; [left; reflexivity | right ..]; try (apply bind_ok in H2 as (s & H2 & _); left; eapply get_string_kind; exact H2).
  right. eexists. split; [reflexivity|]. eapply foldM_all; [|exact H2]. intros s p y H. apply bind_ok in H as (n & H & _). eapply get_int_kind; exact H.
Qed.
Lemma sub_with v k s (P : json -> Prop) l : v = JObj l -> subfield v k = Ok s -> P s -> with_key l k P.
Proof. intros -> H HP. cbn [subfield get_object bind] in H. exists s. split; [apply field_has; exact H | exact HP]. Qed.
Lemma sub_obj v k s : subfield v k = Ok s -> exists l, v = JObj l.
Proof. intros H. apply bind_ok in H as (l & H & _). exists l. apply get_object_eq. exact H. Qed.
Lemma pieces_good o k v x : field o k = Ok v -> template_list v = Ok x -> good_key o (k, KPieces).
Proof.
  intros H1 H2. eapply get_default_good; [exact H1 | exact H2 |]. intros j y H. apply bind_ok in H as (l & H3 & H4). apply get_array_eq in H3. exists l. split; [exact H3|].
  apply bind_ok in H4 as (ps & H4 & _). eapply mapM_all; [|exact H4]. intros e ps' H. unfold template_pieces in H. apply bind_ok in H as (lo & H5 & H6). apply get_object_eq in H5. exists lo. split; [exact H5|].
  eapply mapM_all; [|exact H6]. intros [kk p] q H. cbn [fst snd] in *. apply bind_ok in H as (ij & Hi & H). apply bind_ok in H as (i & Hi' & H). apply bind_ok in H as (tj & Ht & H). apply bind_ok in H as (t & Ht' & _).
  destruct (sub_obj _ _ _ Hi) as (lp & Hp). exists lp. split; [exact Hp|]. split; (eapply sub_with; [exact Hp|eassumption|]); [eapply get_string_kind | eapply get_int_kind]; eassumption.
Qed.
Lemma specials_good o v x : field o "special_tokens" = Ok v -> or_default [] (fun j => l <- get_object j ;; mapM template_special l) v = Ok x -> good_key o ("special_tokens", KSpecials).
Proof.
  intros H1 H2. eapply get_default_good; [exact H1 | exact H2 |]. intros j y H. apply bind_ok in H as (l & H3 & H4). apply get_object_eq in H3. exists l. split; [exact H3|].
  eapply mapM_all; [|exact H4]. intros [kk p] q H. unfold template_special in H. cbn [fst snd] in *. apply bind_ok in H as (ij & Hi & H). apply bind_ok in H as (i & Hi' & H).
  apply bind_ok in H as (dj & Hd & H). apply bind_ok in H as (dl & Hd' & H). apply bind_ok in H as (ds & Hds & H).
  apply bind_ok in H as (tj & Ht & H). apply bind_ok in H as (tl & Ht' & H). apply bind_ok in H as (ts & Hts & _).
  destruct (sub_obj _ _ _ Hi) as (lp & Hp). exists lp. split; [exact Hp|]. apply get_array_eq in Hd', Ht'. split; [|split]; (eapply sub_with; [exact Hp|eassumption|]).
  - eapply get_string_kind; eassumption.
  - exists dl. split; [exact Hd'|]. eapply mapM_all; [|exact Hds]. intros; eapply get_int_kind; eauto.
  - exists tl. split; [exact Ht'|]. eapply mapM_all; [|exact Hts]. intros; eapply get_string_kind; eauto.
Qed.

(** ** Malformed components are rejected *)
Lemma exists_bad o keys : Exists (bad_key o) keys -> Forall (good_key o) keys -> False.
Proof. induction 1 as [e l H | e l _ IH]; intros HF; [exact (good_not_bad _ _ (Forall_inv HF) H) | exact (IH (Forall_inv_tail HF))]. Qed.
Lemma has_fun o k v w : has o k v -> has o k w -> v = w.
Proof. intros H1 H2. apply field_has in H1, H2. congruence. Qed.

Ltac invert_ok H := repeat match type of H with
  | bind _ (fun _ => _) = Ok _ => let x := fresh "v" in let E := fresh "E" in apply bind_ok in H as (x & E & H); try (destruct x as [? ?])
  end.
Ltac goods := repeat match goal with |- Forall _ (_ :: _) => apply Forall_cons | |- Forall _ [] => apply Forall_nil end;
  first [ eapply str_good; eassumption | eapply int_good; eassumption | eapply bool_good; eassumption | eapply sub_good; eassumption | eapply vocab_good; eassumption
        | eapply strs_good; eassumption | eapply num_good; eassumption | eapply strategy_good; eassumption | eapply pieces_good; eassumption | eapply specials_good; eassumption ].
Ltac in_cases H := cbn [In] in H; repeat (destruct H as [H|H]); try contradiction; try discriminate H.
(** the type of a component *)
Ltac known_type H Hty o :=
  let E := fresh "Ety" in assert (E := proj2 (field_has _ _ _) Hty); cbn [bind get_object] in H; rewrite E in H; cbn [bind] in H;
  match type of H with context [get_string (jname ?n)] => change (get_string (jname n)) with (Ok (str n)) in H end; cbn [bind] in H;
  repeat match type of H with context [leqb (str ?a) (str ?b)] => let r := eval vm_compute in (leqb (str a) (str b)) in change (leqb (str a) (str b)) with r in H; cbv iota in H end.

Lemma bad_truncation o t : with_truncation o = Ok t -> forall keys, In ("truncation", keys) required_plain -> Exists (bad_key o) keys -> False.
Proof. intros H keys Hi Hb. unfold with_truncation in H. invert_ok H. in_cases Hi. injection Hi as <-. apply (exists_bad _ _ Hb). goods. Qed.
Lemma bad_padding o t : with_padding o = Ok t -> forall keys, In ("padding", keys) required_plain -> Exists (bad_key o) keys -> False.
Proof. intros H keys Hi Hb. unfold with_padding in H. invert_ok H. in_cases Hi. injection Hi as <-. apply (exists_bad _ _ Hb). goods. Qed.
Lemma type_ok {A} j (f : list (bytes * json) -> bytes -> res A) r : (o <- get_object j ;; tj <- field o "type" ;; ty <- get_string tj ;; f o ty) = Ok r -> is_obj (fun o => with_key o "type" is_str) j.
Proof. intros H. invert_ok H. apply get_object_eq in E. eexists. split; [exact E|]. eexists. split; [apply field_has; exact E0 | eapply get_string_kind; exact E1]. Qed.
Lemma list_all {A} (f : json -> res (option A)) l r : with_list f l = Ok r -> Forall (fun x => exists y, f x = Ok y) l.
Proof. intros H. apply bind_ok in H as (ys & H & _). eapply mapM_all; [|exact H]. eauto. Qed.

Ltac bad_component IH :=
  let H := fresh "H" in let HB := fresh "HB" in intros j r H HB;
  match type of H with _ = Ok _ => idtac end;
  inversion HB as [o keys Hi Hb | v keys Hi Hb | v Ht Hb | l o k v e Ht | v Hi Hb | o name keys Hty Hi Hb | o key Hty Hi Hb | o key l x Hty Hi Hk Hx Hb]; subst; try discriminate;
  [ in_cases Hi | in_cases Hi | exact (Hb (type_ok _ _ _ H))
  | in_cases Hi; injection Hi as <- <-; known_type H Hty o; invert_ok H; apply (exists_bad _ _ Hb); goods
  | in_cases Hi; injection Hi as <-; known_type H Hty o; invert_ok H; apply Hb; eexists; split; [apply field_has; eassumption|];
    match goal with E : get_array _ = Ok _ |- _ => apply get_array_eq in E; rewrite E; eexists; split; [reflexivity | apply Forall_forall; intros; exact I] end
  | in_cases Hi; injection Hi as <-; known_type H Hty o; rewrite (proj2 (field_has _ _ _) Hk) in H; cbn [bind get_array] in H; invert_ok H;
    match goal with E : with_list _ _ = Ok _ |- _ => apply list_all in E; rewrite Forall_forall in E; destruct (E _ Hx) as (y & Hy); exact (IH _ _ Hy Hb) end ].
Lemma bad_normalizer fuel : forall j r, with_normalizer fuel j = Ok r -> malformed "normalizer" j -> False.
Proof. induction fuel as [|f IH]; [discriminate|]. cbn [with_normalizer]. bad_component IH. Qed.
Lemma bad_pre fuel : forall j r, with_pre_tokenizer fuel j = Ok r -> malformed "pre_tokenizer" j -> False.
Proof. induction fuel as [|f IH]; [discriminate|]. cbn [with_pre_tokenizer]. bad_component IH. Qed.
Lemma bad_decoder fuel : forall j r, with_decoder fuel j = Ok r -> malformed "decoder" j -> False.
Proof. induction fuel as [|f IH]; [discriminate|]. cbn [with_decoder]. bad_component IH. Qed.
Lemma bad_post fuel : forall j r, with_post_processor fuel j = Ok r -> malformed "post_processor" j -> False.
Proof. induction fuel as [|f IH]; [discriminate|]. cbn [with_post_processor]. bad_component IH. Qed.
Lemma bad_model j r : with_model j = Ok r -> malformed "model" j -> False.
Proof.
  unfold with_model. intros H HB.
  inversion HB as [o keys Hi Hb | v keys Hi Hb | v Ht Hb | l o k v e Ht | v Hi Hb | o name keys Hty Hi Hb | o key Hty Hi Hb | o key l x Hty Hi Hk Hx Hb]; subst; try discriminate.
  - in_cases Hi.
  - in_cases Hi.
  - exact (Hb (type_ok _ _ _ H)).
  - in_cases Hi; injection Hi as <- <-; assert (E := proj2 (field_has _ _ _) Hty); cbn [bind get_object] in H; rewrite E in H; cbn [bind] in H;
      match type of H with context [get_string (jname ?n)] => change (get_string (jname n)) with (Ok (str n)) in H end; cbn [bind] in H; invert_ok H;
      repeat match type of H with context [leqb (str ?a) (str ?b)] => let r := eval vm_compute in (leqb (str a) (str b)) in change (leqb (str a) (str b)) with r in H; cbv iota in H end;
      invert_ok H; apply (exists_bad _ _ Hb); goods.
  - in_cases Hi.
  - in_cases Hi.
Qed.
Lemma added_key_ok t k j t' : added_token_key t (k, j) = Ok t' -> forall e, In e added_keys -> k = str (fst e) -> of_kind (snd e) j.
Proof.
  intros H e Hi ->. unfold added_token_key in H. in_cases Hi; subst e; cbn [fst snd of_kind] in *;
    repeat match type of H with context [leqb (str ?a) (str ?b)] => let r := eval vm_compute in (leqb (str a) (str b)) in change (leqb (str a) (str b)) with r in H; cbv iota in H end;
    apply bind_ok in H as (x & H & _); first [eapply get_int_kind; exact H | eapply get_string_kind; exact H | eapply get_bool_kind; exact H].
Qed.
Lemma bad_added j r : (l <- get_array j ;; a <- with_added_vocabulary l ;; Ok (Some a)) = Ok r -> malformed "added_tokens" j -> False.
Proof.
  intros H HB. apply bind_ok in H as (l0 & Hl & H). apply get_array_eq in Hl. subst j. apply bind_ok in H as (av & H & _). unfold with_added_vocabulary in H. apply bind_ok in H as (ts & H & _).
  inversion HB as [o keys Hi Hb | v keys Hi Hb | v Ht Hb | l o k v e Ht Hl Hk He Hke Hb | v Hi Hb | o name keys Hty Hi Hb | o key Hty Hi Hb | o key l x Hty Hi Hk Hx Hb]; subst; try discriminate.
  - in_cases Hi.
  - apply Hb. exists l0. split; [reflexivity|]. eapply mapM_all; [|exact H]. intros x t Hx. apply bind_ok in Hx as (o & Hx & _). apply get_object_eq in Hx. exists o. split; [exact Hx | exact I].
  - apply (mapM_all _ (fun x => exists o, x = JObj o /\ Forall (fun p => forall e, In e added_keys -> fst p = str (fst e) -> of_kind (snd e) (snd p)) o)) in H.
    + rewrite Forall_forall in H. destruct (H _ Hl) as (o' & Ho & HF). injection Ho as <-. rewrite Forall_forall in HF. apply Hb. exact (HF _ Hk _ He eq_refl).
    + intros x t Hx. apply bind_ok in Hx as (o' & Hx & Hf). apply get_object_eq in Hx. exists o'. split; [exact Hx|]. eapply foldM_all; [|exact Hf]. intros s [k' j'] y Hy e' He' Hke'. cbn [fst snd] in *. eapply added_key_ok; eauto.
  - in_cases Hi.
Qed.

Lemma component_ok {A} o k (get : json -> res (option A)) r : component o k get = Ok r -> exists j, has o k j /\ (j = JNull /\ r = None \/ get j = Ok r).
Proof.
  intros H. apply bind_ok in H as (j & H1 & H2). exists j. split; [apply field_has; exact H1|]. destruct j; [left; injection H2 as <-; split; reflexivity | right; exact H2 ..].
Qed.
(** everything a successful reading says *)
Lemma read_ok doc t : read_config doc = Ok t -> exists o, doc = JObj o /\ forall k, In k top_keys -> exists j, has o k j /\ (j = JNull \/ ~ malformed k j).
Proof.
  intros H. unfold read_config in H. cbv zeta in H. apply bind_ok in H as (o & Ho & H). apply get_object_eq in Ho. exists o. split; [exact Ho|].
  do 8 (apply bind_ok in H as (? & ?H & H)). intros k Hk.
  repeat match goal with HC : component _ _ _ = Ok _ |- _ => apply component_ok in HC as (? & ? & HC) end.
  in_cases Hk; subst k;
  match goal with Hh : has _ ?k ?j |- exists _, has _ ?k _ /\ _ => exists j; split; [exact Hh|];
     match goal with HC : j = JNull /\ _ \/ _ |- _ => destruct HC as [[HR _]|HR]; [left; exact HR | right; intros HB] end end.
  - apply bind_ok in HR as (l & Hl & HR). apply get_object_eq in Hl. apply bind_ok in HR as (t' & HR & _). subst.
    inversion HB as [o' keys Hi Hb | v keys Hi Hb | v Ht Hb | ? ? ? ? ? Ht | v Hi Hb | o' name keys Hty Hi Hb | o' key Hty Hi Hb | o' key ? ? Hty Hi]; subst; try discriminate; try (in_cases Hi; fail).
    + eapply bad_truncation; eauto.
    + apply Hb. eexists. split; [reflexivity | exact I].
  - apply bind_ok in HR as (l & Hl & HR). apply get_object_eq in Hl. apply bind_ok in HR as (t' & HR & _). subst.
    inversion HB as [o' keys Hi Hb | v keys Hi Hb | v Ht Hb | ? ? ? ? ? Ht | v Hi Hb | o' name keys Hty Hi Hb | o' key Hty Hi Hb | o' key ? ? Hty Hi]; subst; try discriminate; try (in_cases Hi; fail).
    + eapply bad_padding; eauto.
    + apply Hb. eexists. split; [reflexivity | exact I].
  - eapply bad_added; eauto.
  - eapply bad_normalizer; eauto.
  - eapply bad_pre; eauto.
  - eapply bad_model; eauto.
  - eapply bad_decoder; eauto.
  - eapply bad_post; eauto.
Qed.

(** ** Round trip *)
Ltac look_up := repeat (
  match goal with |- context [field ?o ?k] =>
    let r := eval hnf in (field o k) in
    match r with Ok ?v => let v' := eval hnf in v in change (field o k) with (Ok v') end end; cbn [bind]).
Lemma get_jname' s : forallb (fun b => negb (b =? 92)%N) (str s) = true -> get_string (jname s) = Ok (str s).
Proof. intros H. apply get_jname. apply Forall_forall. intros b Hb. rewrite forallb_forall in H. specialize (H b Hb). lia. Qed.
Lemma str_field_jstr o k s : has o k (jstr s) -> str_field o k = Ok s.
Proof. intros H. apply field_has in H. unfold str_field. rewrite H. cbn [bind]. exact (get_jstr s). Qed.
Lemma str_field_jname o k s : has o k (jname s) -> forallb (fun b => negb (b =? 92)%N) (str s) = true -> str_field o k = Ok (str s).
Proof. intros H Hs. apply field_has in H. unfold str_field. rewrite H. cbn [bind]. exact (get_jname' s Hs). Qed.
Lemma bool_field_ok o k b : has o k (JBool b) -> bool_field o k = Ok b.
Proof. intros H. apply field_has in H. unfold bool_field. rewrite H. reflexivity. Qed.
Lemma int_field_ok o k z : has o k (jint z) -> int32 z -> int_field o k = Ok z.
Proof. intros H Hz. apply field_has in H. unfold int_field. rewrite H. cbn [bind]. exact (get_jint z Hz). Qed.
Lemma int_field_null o k : has o k JNull -> int_field o k = Ok 0%Z.
Proof. intros H. apply field_has in H. unfold int_field. rewrite H. reflexivity. Qed.
Lemma has_here k v l : has ((str k, v) :: l) k v.
Proof. exists [], l. split; [reflexivity | intros []]. Qed.
Lemma has_there k v p l : fst p <> str k -> has l k v -> has (p :: l) k v.
Proof. intros Hp (b & a & -> & Hb). exists (p :: b), a. split; [reflexivity|]. intros [H|H]; [exact (Hp H) | exact (Hb H)]. Qed.
Ltac find_key := unfold jkey; repeat first [apply has_here | apply has_there; [cbn [fst]; discriminate|]].
Ltac rd := match goal with
  | |- context [str_field ?o ?k] => first [erewrite (str_field_jstr o k) by find_key | erewrite (str_field_jname o k) by (try find_key; try reflexivity)]
  | |- context [bool_field ?o ?k] => erewrite (bool_field_ok o k) by find_key
  | |- context [int_field ?o ?k] => first [erewrite (int_field_ok o k) by (try find_key; try assumption) | erewrite (int_field_null o k) by find_key]
  end; cbn [bind].
Ltac fd := match goal with |- context [field ?o ?k] => erewrite (proj2 (field_has o k _)) by find_key end; cbn [bind].
Lemma pattern_ok k s : or_default [] (fun j => x <- subfield j k ;; get_string x) (JObj [(str k, jstr s)]) = Ok s.
Proof. cbn [or_default subfield get_object bind]. erewrite (proj2 (field_has _ k _)) by find_key. cbn [bind]. apply get_jstr. Qed.
Lemma mapM_map {A B C} (f : B -> res C) (g : A -> B) (h : A -> C) l : (forall x, In x l -> f (g x) = Ok (h x)) -> mapM f (map g l) = Ok (map h l).
Proof. induction l as [|x l IH]; intros H; [reflexivity|]. cbn [map mapM]. rewrite H by (left; reflexivity). cbn [bind]. rewrite IH by (intros y Hy; apply H; right; exact Hy). reflexivity. Qed.
Lemma with_list_map {A} (f : json -> res (option A)) (g : A -> json) l : (forall x, In x l -> f (g x) = Ok (Some x)) -> with_list f (map g l) = Ok l.
Proof.
  intros H. unfold with_list. rewrite (mapM_map f g Some l H). cbn [bind]. f_equal. clear H. induction l as [|x l IH]; [reflexivity|]. cbn [map flat_map]. rewrite IH. reflexivity.
Qed.
Lemma depth_element {A} (g : A -> json) l ty k x : In x l -> json_depth (g x) < json_depth (jobj ty [jkey k (JArr (map g l))]).
Proof.
  intros H. apply (in_map g) in H. pose proof (depth_arr _ _ H). pose proof (depth_obj [jkey "type" (jname ty); jkey k (JArr (map g l))] (str k) (JArr (map g l)) (or_intror (or_introl eq_refl))). unfold jobj. lia.
Qed.
Ltac typ := unfold jobj; cbn [get_object bind]; fd; rewrite get_jname' by reflexivity; cbn [bind];
  repeat match goal with |- context [leqb (str ?a) (str ?b)] => let r := eval vm_compute in (leqb (str a) (str b)) in change (leqb (str a) (str b)) with r; cbv iota end.

Lemma rt_truncation t : trunc_ok t -> exists o, render_trunc t = JObj o /\ with_truncation o = Ok t.
Proof.
  intros (H1 & H2). destruct t as [d s m st]. cbn [t_max t_stride] in *. eexists. split; [reflexivity|]. unfold with_truncation. cbn [t_dir t_strat t_max t_stride].
  destruct d, s; repeat rd; reflexivity.
Qed.
Lemma rt_padding p : pad_ok p -> exists o, render_pad p = JObj o /\ with_padding o = Ok p.
Proof.
  intros (H1 & H2 & H3 & H4 & H5). destruct p as [d s fx i ti tok m]. cbn [p_dir p_strat p_fixed p_id p_type_id p_token p_multiple] in *. eexists. split; [reflexivity|]. unfold with_padding.
  cbn [p_dir p_strat p_fixed p_id p_type_id p_token p_multiple].
  assert (Hd : forall o, has o "direction" (jname match d with PRight => "Right" | PLeft => "Left" | PUnknown => "" end) -> exists x, str_field o "direction" = Ok x /\ get_padding_direction x = d).
  { intros o Ho. destruct d; (erewrite str_field_jname by (try exact Ho; reflexivity); eexists; split; reflexivity). }
  match goal with |- context [str_field ?o "direction"] => destruct (Hd o) as (x & Hx & Hx'); [find_key|]; rewrite Hx end. cbn [bind]. fd.
  match goal with |- context [padding_strategy ?v] => assert (Hs : exists y, padding_strategy v = Ok (y, fx) /\ get_padding_strategy y = s) end.
  { destruct s.
    - exists (str "BatchLongest"). rewrite H5 by discriminate. split; [|reflexivity]. change (padding_strategy (jname "BatchLongest")) with (s <- get_string (jname "BatchLongest") ;; Ok (s, (-1)%Z)).
      rewrite get_jname' by reflexivity. reflexivity.
    - exists (str "Fixed"). split; [|reflexivity]. unfold jkey. cbn [padding_strategy foldM fst snd]. rewrite get_jint by assumption. reflexivity.
    - exists []. rewrite H5 by discriminate. split; reflexivity. }
  destruct Hs as (y & Hy & Hy'). rewrite Hy. cbn [bind]. rd. rd. rd.
  match goal with |- context [int_field ?o ?k] => replace (int_field o k) with (Ok m : res Z) end.
  - cbn [bind]. rewrite Hx', Hy'. reflexivity.
  - destruct (Z.eqb_spec m 0) as [->|]; symmetry; [apply int_field_null | apply int_field_ok]; try assumption; find_key.
Qed.
Lemma rt_added l : Forall (fun t => int32 (at_id t)) l -> with_added_vocabulary (map render_added l) = Ok (new_added_vocab l).
Proof.
  intros H. unfold with_added_vocabulary. rewrite (mapM_map _ render_added (fun t => t)).
  - rewrite map_id. reflexivity.
  - intros t Ht. rewrite Forall_forall in H. specialize (H _ Ht). destruct t as [i c sw ls rs nm sp]. cbn [at_id] in H. unfold render_added, jkey. cbn [get_object bind at_id at_content at_single_word at_lstrip at_rstrip at_normalized at_special foldM].
    unfold added_token_key, default_added_token.
    repeat match goal with |- context [leqb (str ?a) (str ?b)] => let r := eval vm_compute in (leqb (str a) (str b)) in change (leqb (str a) (str b)) with r; cbv iota end.
    rewrite get_jint by assumption. rewrite get_jstr. reflexivity.
Qed.
Lemma rt_normalizer fuel : forall n, json_depth (render_norm n) < fuel -> with_normalizer fuel (render_norm n) = Ok (Some n).
Proof.
  induction fuel as [|f IH]; intros n Hn; [lia|]. destruct n as [c h s l|[]|p|p c|l r| |l]; cbn [with_normalizer render_norm]; typ; try reflexivity; try (repeat rd; reflexivity).
  - fd. rewrite pattern_ok. cbn [bind]. rd. reflexivity.
  - fd. cbn [get_array bind]. rewrite with_list_map; [reflexivity|]. intros x Hx. apply IH. cbn [render_norm] in Hn. pose proof (depth_element render_norm l "Sequence" "normalizers" x Hx). lia.
Qed.
Lemma rt_pre fuel : forall n, json_depth (render_pre n) < fuel -> with_pre_tokenizer fuel (render_pre n) = Ok (Some n).
Proof.
  induction fuel as [|f IH]; intros n Hn; [lia|]. destruct n as [|p b i|a r|l]; cbn [with_pre_tokenizer render_pre]; typ; try reflexivity; try (repeat rd; reflexivity).
  - fd. rewrite pattern_ok. cbn [bind]. destruct b; repeat rd; reflexivity.
  - fd. cbn [get_array bind]. rewrite with_list_map; [reflexivity|]. intros x Hx. apply IH. cbn [render_pre] in Hn. pose proof (depth_element render_pre l "Sequence" "pretokenizers" x Hx). lia.
Qed.
Lemma dec_ok_all l : dec_ok (DSequence l) -> Forall dec_ok l.
Proof. cbn [dec_ok]. induction l as [|x l IH]; [constructor|]. intros (H1 & H2). apply Forall_cons; [exact H1 | exact (IH H2)]. Qed.
Lemma rt_decoder fuel : forall n, dec_ok n -> json_depth (render_dec n) < fuel -> with_decoder fuel (render_dec n) = Ok (Some n).
Proof.
  induction fuel as [|f IH]; intros n Hok Hn; [lia|]. destruct n as [p c|p c| | |c a b| |l]; cbn [with_decoder render_dec]; try destruct Hok as [Ha Hb]; typ; try reflexivity; try (repeat rd; reflexivity).
  all: try (fd; rewrite pattern_ok; cbn [bind]; rd; reflexivity).
  all: fd; cbn [get_array bind]; rewrite with_list_map; [reflexivity|]; intros x Hx; apply IH; [eapply Forall_forall; [apply dec_ok_all; exact Hok | exact Hx]|]; cbn [render_dec] in Hn; pose proof (depth_element render_dec l "Sequence" "decoders" x Hx); lia.
Qed.
Lemma post_ok_all l : post_ok (PSequence l) -> Forall post_ok l.
Proof. cbn [post_ok]. induction l as [|x l IH]; [constructor|]. intros (H1 & H2). apply Forall_cons; [exact H1 | exact (IH H2)]. Qed.
Lemma rt_pieces l : Forall (fun x => int32 (pc_type x)) l -> template_list (JArr (map render_piece l)) = Ok l.
Proof.
  intros H. unfold template_list. cbn [or_default get_array bind]. rewrite (mapM_map _ render_piece (fun p => [p])).
  - cbn [bind]. f_equal. clear H. induction l as [|x l IH]; [reflexivity|]. cbn [map concat app]. rewrite IH. reflexivity.
  - intros p Hp. rewrite Forall_forall in H. specialize (H _ Hp). destruct p as [k i t]. cbn [pc_type] in H. unfold render_piece, template_pieces. cbn [get_object bind mapM fst snd pc_kind pc_id pc_type subfield].
    fd. rewrite get_jstr. cbn [bind]. fd. rewrite get_jint by assumption. reflexivity.
Qed.
Lemma rt_special s : Forall int32 (st_ids s) -> template_special (render_special s) = Ok s.
Proof.
  intros H. destruct s as [i ids toks]. cbn [st_ids] in H. unfold template_special, render_special. cbn [get_object bind fst snd st_id st_ids st_tokens subfield].
  fd. rewrite get_jstr. cbn [bind]. fd. cbn [get_array bind]. rewrite (mapM_map get_int jint (fun z => z)); [|intros z Hz; apply get_jint; eapply Forall_forall; eassumption]. cbn [bind].
  fd. cbn [get_array bind]. rewrite (mapM_map get_string jstr (fun z => z)); [|intros z _; apply get_jstr]. cbn [bind]. rewrite !map_id. reflexivity.
Qed.
Lemma rt_post fuel : forall n, post_ok n -> json_depth (render_post n) < fuel -> with_post_processor fuel (render_post n) = Ok (Some n).
Proof.
  induction fuel as [|f IH]; intros n Hok Hn; [lia|]. destruct n as [single specials|a t|l]; cbn [with_post_processor render_post]; typ; try (repeat rd; reflexivity).
  - destruct Hok as [H1 H2]. fd. rewrite rt_pieces by assumption. cbn [bind]. fd. change (template_list (JArr [])) with (Ok ([] : list piece)). cbn [bind]. fd. cbn [or_default get_object bind].
    rewrite (mapM_map _ render_special (fun s => s)); [|intros s Hs; apply rt_special; exact (proj1 (Forall_forall _ _) H2 _ Hs)]. cbn [bind]. rewrite map_id. reflexivity.
  - fd; cbn [get_array bind]; rewrite with_list_map; [reflexivity|]; intros x Hx; apply IH; [eapply Forall_forall; [apply post_ok_all; exact Hok | exact Hx]|]; cbn [render_post] in Hn; pose proof (depth_element render_post l "Sequence" "processors" x Hx); lia.
Qed.
Lemma rt_ints v : forall m, NoDup (map fst (m ++ v)) -> Forall (fun p => plain (fst p) /\ int32 (snd p)) v ->
  foldM (fun m p => n <- get_int (snd p) ;; Ok (sinsert (fst p) n m)) m (map (fun p => (quote (fst p), jint (snd p))) v) = Ok (m ++ v).
Proof.
  induction v as [|[k z] v IH]; intros m Hn HF; [cbn; rewrite app_nil_r; reflexivity|]. destruct (Forall_inv HF) as [Hp Hz]. cbn [fst snd] in *. cbn [map foldM fst snd]. rewrite get_jint by assumption. cbn [bind].
  rewrite quote_plain by assumption.
  assert (Hk : ~ In k (map fst m)). { rewrite map_app in Hn. cbn [map fst] in Hn. apply NoDup_remove_2 in Hn. intros H. apply Hn. apply in_or_app. left. exact H. }
  assert (Hs : sinsert k z m = m ++ [(k, z)]).
  { unfold sinsert. destruct (sfind k m) as [w|] eqn:E; [|reflexivity]. exfalso. apply Hk. apply sfind_in in E. apply in_map_iff. exists (k, w). split; [reflexivity | exact E]. }
  rewrite Hs. rewrite IH; [rewrite <- app_assoc; reflexivity | rewrite <- app_assoc; exact Hn | exact (Forall_inv_tail HF)].
Qed.
Lemma rt_vocab v : vocab_ok v -> or_default [] (fun j => l <- get_object j ;; get_map_ints_from_json l) (render_vocab v) = Ok v.
Proof. intros (H1 & H2). unfold render_vocab. cbn [or_default get_object bind]. exact (rt_ints v [] H1 H2). Qed.
Lemma rt_model m : model_ok m -> with_model (render_model m) = (b <- build_model m ;; Ok (Some b)).
Proof.
  destruct m as [w|v ms d u p s fu bf ig]; intros H; unfold with_model; cbn [render_model build_model].
  - destruct w as [v u mx p]. destruct H as [H1 H2]. cbn [wp_vocab wp_max wp_unk wp_prefix] in *. typ. fd. rewrite rt_vocab by assumption. cbn [bind].
    repeat match goal with |- context [leqb (str ?a) (str ?b)] => let r := eval vm_compute in (leqb (str a) (str b)) in change (leqb (str a) (str b)) with r; cbv iota end. repeat rd. reflexivity.
  - typ. fd. rewrite rt_vocab by assumption. cbn [bind].
    repeat match goal with |- context [leqb (str ?a) (str ?b)] => let r := eval vm_compute in (leqb (str a) (str b)) in change (leqb (str a) (str b)) with r; cbv iota end.
    fd. cbn [or_default get_array bind]. rewrite (mapM_map get_string jstr (fun z => z)); [|intros z _; apply get_jstr]. rewrite map_id. cbn [bind]. fd. cbn [or_default get_float bind]. repeat rd.
    destruct (new_bpe v ms d u p s fu bf ig); reflexivity.
Qed.
