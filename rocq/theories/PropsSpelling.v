(** The strings of a configuration (C114). *)
From Verif Require Import Base BaseFacts Unicode Common Utils PostProcessor Decoder Normalizer PreTokenizer WordPiece Bpe AddedVocab Tokenizer Config EscSpec EscProofs ConfigSpec ConfigProofs SpellSpec PropsConfig Env.

Definition rr {A B} (R : A -> B -> Prop) (a : res A) (b : res B) : Prop :=
  match a, b with Ok x, Ok y => R x y | Throw e, Throw e' => e = e' | Undef u, Undef u' => u = u' | Diverge, Diverge => True | _, _ => False end.
Lemma rr_eq {A} (a b : res A) : rr eq a b <-> a = b.
Proof. destruct a, b; cbn; split; intros H; congruence || tauto. Qed.
Lemma rr_bind {A B C D} (R : A -> B -> Prop) (S : C -> D -> Prop) a b f g : rr R a b -> (forall x y, R x y -> rr S (f x) (g y)) -> rr S (bind a f) (bind b g).
Proof. destruct a, b; cbn; intros H K; try contradiction; auto. Qed.
Definition rpair (p q : bytes * json) : Prop := fst p = fst q /\ respelled (snd p) (snd q).
Lemma resp_array j j' : respelled j j' -> rr (Forall2 respelled) (get_array j) (get_array j').
Proof. intros H. inversion H as [x|raw raw' Hs|l l' Hl|l l' Hl]; subst; cbn; try reflexivity; try exact Hl. destruct j' as [| | | | |l|]; cbn; try reflexivity. clear H. induction l; constructor; [apply rs_same | assumption]. Qed.
Lemma rpairs_refl l : Forall2 rpair l l.
Proof. induction l; constructor; [split; [reflexivity | apply rs_same] | assumption]. Qed.
Lemma resp_object j j' : respelled j j' -> rr (Forall2 rpair) (get_object j) (get_object j').
Proof. intros H. inversion H as [x|raw raw' Hs|l l' Hl|l l' Hl]; subst; cbn; try reflexivity; try exact Hl. destruct j'; cbn; try reflexivity. apply rpairs_refl. Qed.
Lemma resp_string j j' : respelled j j' -> get_string j = get_string j'.
Proof.
  intros H. inversion H as [x|raw raw' Hs|l l' Hl|l l' Hl]; subst; try reflexivity. cbn [get_string]. destruct (unescape raw) as [s|] eqn:E.
  - apply unescape_iff, Hs, unescape_iff in E. rewrite E. reflexivity.
  - destruct (unescape raw') as [s|] eqn:E'; [|reflexivity]. apply unescape_iff, Hs, unescape_iff in E'. congruence.
Qed.
Lemma resp_int j j' : respelled j j' -> get_int j = get_int j'.
Proof. intros H. inversion H; reflexivity. Qed.
Lemma resp_bool j j' : respelled j j' -> get_bool j = get_bool j'.
Proof. intros H. inversion H; reflexivity. Qed.
Lemma resp_float j j' : respelled j j' -> get_float j = get_float j'.
Proof. intros H. inversion H; reflexivity. Qed.
Lemma resp_default {A} (d : A) g j j' : respelled j j' -> g j = g j' -> or_default d g j = or_default d g j'.
Proof. intros H Hg. inversion H; subst; try exact Hg. reflexivity. Qed.
Lemma resp_field o o' k : Forall2 rpair o o' -> rr respelled (field o k) (field o' k).
Proof.
  induction 1 as [|[a x] [b y] o o' [Hp Hr] H IH]; unfold field in *; [reflexivity|]. cbn [find fst snd] in *. subst b. destruct (leqb a (str k)); [exact Hr | exact IH].
Qed.
Lemma resp_subfield j j' k : respelled j j' -> rr respelled (subfield j k) (subfield j' k).
Proof. intros H. eapply rr_bind; [apply resp_object; exact H|]. intros. apply resp_field. assumption. Qed.
Lemma rr_bind_eq {A B C} (R : A -> B -> Prop) a b (f : A -> res C) g : rr R a b -> (forall x y, R x y -> f x = g y) -> bind a f = bind b g.
Proof. intros H K. apply rr_eq. eapply rr_bind; [exact H|]. intros. apply rr_eq. auto. Qed.
Lemma bind_ext {A B} (r : res A) (f g : A -> res B) : (forall x, f x = g x) -> bind r f = bind r g.
Proof. intros H. destruct r; cbn; congruence. Qed.
Lemma resp_str_field o o' k : Forall2 rpair o o' -> str_field o k = str_field o' k.
Proof. intros H. eapply rr_bind_eq; [apply resp_field; exact H|]. intros. apply resp_default; [assumption | apply resp_string; assumption]. Qed.
Lemma resp_int_field o o' k : Forall2 rpair o o' -> int_field o k = int_field o' k.
Proof. intros H. eapply rr_bind_eq; [apply resp_field; exact H|]. intros. apply resp_default; [assumption | apply resp_int; assumption]. Qed.
Lemma resp_bool_field o o' k : Forall2 rpair o o' -> bool_field o k = bool_field o' k.
Proof. intros H. eapply rr_bind_eq; [apply resp_field; exact H|]. intros. apply resp_default; [assumption | apply resp_bool; assumption]. Qed.
Lemma resp_mapM {A B} (R : A -> A -> Prop) (f g : A -> res B) l l' : Forall2 R l l' -> (forall x y, R x y -> f x = g y) -> mapM f l = mapM g l'.
Proof. intros H K. induction H as [|x y l l' Hx H IH]; [reflexivity|]. cbn [mapM]. rewrite (K _ _ Hx), IH. reflexivity. Qed.
Lemma resp_foldM {A S} (R : A -> A -> Prop) (f : S -> A -> res S) l l' : Forall2 R l l' -> (forall s x y, R x y -> f s x = f s y) -> forall s, foldM f s l = foldM f s l'.
Proof. intros H K. induction H as [|x y l l' Hx H IH]; intros s; [reflexivity|]. cbn [foldM]. rewrite (K _ _ _ Hx). apply bind_ext. exact IH. Qed.
Lemma resp_in j j' k : respelled j j' -> (s <- subfield j k ;; get_string s) = (s <- subfield j' k ;; get_string s).
Proof. intros H. eapply rr_bind_eq; [apply resp_subfield; exact H|]. intros. apply resp_string. assumption. Qed.
Lemma resp_ids j j' : respelled j j' -> (l <- get_object j ;; get_map_ints_from_json l) = (l <- get_object j' ;; get_map_ints_from_json l).
Proof. intros H. eapply rr_bind_eq; [apply resp_object; exact H|]. intros l l' Hl. unfold get_map_ints_from_json. eapply resp_foldM; [exact Hl|]. intros s [a x] [b y] [Hxy Hr]. cbn [fst snd] in *. subst b. rewrite (resp_int _ _ Hr). reflexivity. Qed.
Lemma resp_strategy j j' : respelled j j' -> padding_strategy j = padding_strategy j'.
Proof.
  intros H. inversion H as [x|raw raw' Hs|l l' Hl|l l' Hl]; subst; try reflexivity; cbn [padding_strategy]; [rewrite (resp_string _ _ H); reflexivity|].
  eapply resp_foldM; [exact Hl|]. intros s [a x] [b y] [Hxy Hr]. cbn [fst snd] in *. subst b. rewrite (resp_int _ _ Hr). reflexivity.
Qed.
Lemma resp_pieces j j' : respelled j j' -> template_pieces j = template_pieces j'.
Proof.
  intros H. eapply rr_bind_eq; [apply resp_object; exact H|]. intros l l' Hl. eapply resp_mapM; [exact Hl|]. intros [a0 x] [b0 y] [Hxy Hr]. cbn [fst snd] in *. subst b0.
  eapply rr_bind_eq; [apply resp_subfield; exact Hr|]. intros a b Hab. rewrite (resp_string _ _ Hab). apply bind_ext. intros i.
  eapply rr_bind_eq; [apply resp_subfield; exact Hr|]. intros c d Hcd. rewrite (resp_int _ _ Hcd). reflexivity.
Qed.
Lemma resp_template j j' : respelled j j' -> template_list j = template_list j'.
Proof. intros H. apply resp_default; [exact H|]. eapply rr_bind_eq; [apply resp_array; exact H|]. intros l l' Hl. erewrite resp_mapM; [reflexivity | exact Hl | exact resp_pieces]. Qed.
Lemma resp_special p q : rpair p q -> template_special p = template_special q.
Proof.
  destruct p as [a0 p], q as [b0 q]. intros [Hp Hr]. cbn [fst snd] in *. unfold template_special. cbn [snd]. eapply rr_bind_eq; [apply resp_subfield; exact Hr|]. intros a b Hab. rewrite (resp_string _ _ Hab). apply bind_ext. intros i.
  eapply rr_bind_eq; [apply resp_subfield; exact Hr|]. intros c d Hcd. eapply rr_bind_eq; [apply resp_array; exact Hcd|]. intros l l' Hl. rewrite (resp_mapM respelled get_int get_int l l' Hl resp_int). apply bind_ext. intros ids.
  eapply rr_bind_eq; [apply resp_subfield; exact Hr|]. intros e f Hef. eapply rr_bind_eq; [apply resp_array; exact Hef|]. intros k k' Hk. rewrite (resp_mapM respelled get_string get_string k k' Hk resp_string). reflexivity.
Qed.
Ltac spelled Ho := repeat match goal with
  | |- ?x = ?x => reflexivity
  | |- bind (str_field _ _) _ = _ => rewrite (resp_str_field _ _ _ Ho); apply bind_ext; intro
  | |- bind (int_field _ _) _ = _ => rewrite (resp_int_field _ _ _ Ho); apply bind_ext; intro
  | |- bind (bool_field _ _) _ = _ => rewrite (resp_bool_field _ _ _ Ho); apply bind_ext; intro
  | |- bind (field _ _) _ = _ => eapply rr_bind_eq; [apply resp_field; exact Ho|]; let x := fresh "x" in let y := fresh "y" in let H := fresh "H" in intros x y H
  | H : respelled ?x ?y |- bind (or_default _ (fun j => bind (subfield j ?k) _) ?x) _ = _ => rewrite (resp_default _ (fun j => s <- subfield j k ;; get_string s) _ _ H (resp_in _ _ k H)); apply bind_ext; intro
  | H : respelled ?x ?y |- bind (get_string ?x) _ = _ => rewrite (resp_string _ _ H); apply bind_ext; intro
  | H : respelled ?x ?y |- bind (template_list ?x) _ = _ => rewrite (resp_template _ _ H); apply bind_ext; intro
  | H : respelled ?x ?y |- bind (padding_strategy ?x) _ = _ => rewrite (resp_strategy _ _ H); apply bind_ext; intros [? ?]
  | |- (if ?b then _ else _) = (if ?b then _ else _) => destruct b
  end.
Lemma resp_truncation o o' : Forall2 rpair o o' -> with_truncation o = with_truncation o'.
Proof. intros Ho. unfold with_truncation. spelled Ho. Qed.
Lemma resp_padding o o' : Forall2 rpair o o' -> with_padding o = with_padding o'.
Proof. intros Ho. unfold with_padding. spelled Ho. Qed.
Lemma resp_added l l' : Forall2 respelled l l' -> with_added_vocabulary l = with_added_vocabulary l'.
Proof.
  intros H. unfold with_added_vocabulary. erewrite resp_mapM; [reflexivity | exact H|]. intros x y Hxy. eapply rr_bind_eq; [apply resp_object; exact Hxy|]. intros o o' Ho. eapply resp_foldM; [exact Ho|].
  intros t [k a] [k' b] [Hk Hr]. cbn [fst snd] in *. subst k'. unfold added_token_key. rewrite (resp_int _ _ Hr), (resp_string _ _ Hr), (resp_bool _ _ Hr). reflexivity.
Qed.
Lemma resp_list {A} (f : json -> res (option A)) l l' : Forall2 respelled l l' -> (forall x y, respelled x y -> f x = f y) -> with_list f l = with_list f l'.
Proof. intros H K. unfold with_list. rewrite (resp_mapM _ f f l l' H K). reflexivity. Qed.
Ltac resp_component IH := intros j j' H; cbn [with_normalizer with_pre_tokenizer with_decoder with_post_processor];
  eapply rr_bind_eq; [apply resp_object; exact H|]; intros o o' Ho; spelled Ho;
  eapply rr_bind_eq; [apply resp_array; eassumption|]; intros l l' Hl; rewrite (resp_list _ _ _ Hl IH); reflexivity.
Lemma resp_normalizer f : forall j j', respelled j j' -> with_normalizer f j = with_normalizer f j'.
Proof. induction f as [|f IH]; [reflexivity|]. resp_component IH. Qed.
Lemma resp_pre f : forall j j', respelled j j' -> with_pre_tokenizer f j = with_pre_tokenizer f j'.
Proof. induction f as [|f IH]; [reflexivity|]. resp_component IH. Qed.
Lemma resp_decoder f : forall j j', respelled j j' -> with_decoder f j = with_decoder f j'.
Proof. induction f as [|f IH]; [reflexivity|]. resp_component IH. Qed.
Lemma resp_post f : forall j j', respelled j j' -> with_post_processor f j = with_post_processor f j'.
Proof.
  induction f as [|f IH]; [reflexivity|]. intros j j' H; cbn [with_post_processor]. eapply rr_bind_eq; [apply resp_object; exact H|]; intros o o' Ho; spelled Ho.
  - erewrite resp_default; [reflexivity | eassumption|]. cbn beta. eapply rr_bind_eq; [apply resp_object; eassumption|]. intros l l' Hl. exact (resp_mapM _ _ _ _ _ Hl resp_special).
  - eapply rr_bind_eq; [apply resp_array; eassumption|]; intros l l' Hl; rewrite (resp_list _ _ _ Hl IH); reflexivity.
Qed.
Lemma resp_model j j' : respelled j j' -> with_model j = with_model j'.
Proof.
  intros H. unfold with_model. eapply rr_bind_eq; [apply resp_object; exact H|]; intros o o' Ho. spelled Ho.
  match goal with Q : respelled ?x ?y |- bind (or_default _ _ ?x) _ = bind (or_default _ _ ?y) _ => rewrite (resp_default _ (fun j => l <- get_object j ;; get_map_ints_from_json l) _ _ Q (resp_ids _ _ Q)) end. apply bind_ext. intros v. spelled Ho.
  match goal with Q : respelled ?x ?y |- bind (or_default _ _ ?x) _ = bind (or_default _ _ ?y) _ => rewrite (resp_default _ (fun j => l <- get_array j ;; mapM get_string l) _ _ Q) end.
  2:{ eapply rr_bind_eq; [apply resp_array; eassumption|]. intros l l' Hl. exact (resp_mapM _ _ _ _ _ Hl resp_string). }
  apply bind_ext. intros m. spelled Ho.
  match goal with Q : respelled ?x ?y |- bind (or_default _ _ ?x) _ = bind (or_default _ _ ?y) _ => rewrite (resp_default _ get_float _ _ Q (resp_float _ _ Q)) end. apply bind_ext. intros d. spelled Ho.
Qed.
Lemma resp_depth : forall n j j', json_depth j < n -> respelled j j' -> json_depth j = json_depth j'.
Proof.
  induction n as [|n IH]; intros j j' Hn H; [lia|]. inversion H as [x|raw raw' Hs|l l' Hl|l l' Hl]; subst; try reflexivity; cbn [json_depth] in *; f_equal.
  - apply Nat.succ_lt_mono in Hn. clear H. induction Hl as [|x y l l' Hx Hl IHl]; [reflexivity|]. rewrite (IH x y) by (lia || exact Hx). f_equal. apply IHl. lia.
  - apply Nat.succ_lt_mono in Hn. clear H. induction Hl as [|[k x] [k' y] l l' [_ Hx] Hl IHl]; [reflexivity|]. cbn [snd] in Hx. rewrite (IH x y) by (lia || exact Hx). f_equal. apply IHl. lia.
Qed.

(** ** C114 *)
(** A string value is read as the string it stands for by RFC 8259; if it stands for none it is an error. *)
Theorem C114_string : forall raw s, get_string (JStr raw) = Ok s <-> json_string raw s.
Proof. intros raw s. cbn [get_string]. rewrite <- unescape_iff. destruct (unescape raw); split; congruence. Qed.
Print Assumptions C114_string.
(** Spelling the strings of a document differently changes nothing. *)
Theorem C114_respelled : forall j j', respelled j j' -> read_config j = read_config j'.
Proof.
  intros j j' H. unfold read_config. rewrite (resp_depth _ _ _ (Nat.lt_succ_diag_r _) H). remember (S (json_depth j')) as n. clear Heqn. cbv zeta. eapply rr_bind_eq; [apply resp_object; exact H|]. intros o o' Ho.
  assert (K : forall {A} k (g : json -> res (option A)), (forall x y, respelled x y -> g x = g y) -> component o k g = component o' k g).
  { intros A k g Hg. eapply rr_bind_eq; [apply resp_field; exact Ho|]. intros x y Hxy. apply resp_default; [exact Hxy | apply Hg; exact Hxy]. }
  rewrite K. 2:{ intros x y Hxy. eapply rr_bind_eq; [apply resp_object; exact Hxy|]. intros l l' Hl. rewrite (resp_truncation _ _ Hl). reflexivity. } apply bind_ext. intros tr.
  rewrite K. 2:{ intros x y Hxy. eapply rr_bind_eq; [apply resp_object; exact Hxy|]. intros l l' Hl. rewrite (resp_padding _ _ Hl). reflexivity. } apply bind_ext. intros pd.
  rewrite K. 2:{ intros x y Hxy. eapply rr_bind_eq; [apply resp_array; exact Hxy|]. intros l l' Hl. rewrite (resp_added _ _ Hl). reflexivity. } apply bind_ext. intros av.
  rewrite K by apply resp_normalizer. apply bind_ext. intros no. rewrite K by apply resp_pre. apply bind_ext. intros pt. rewrite K by apply resp_model. apply bind_ext. intros md.
  rewrite K by apply resp_decoder. apply bind_ext. intros de. rewrite K by apply resp_post. reflexivity.
Qed.
Print Assumptions C114_respelled.
(** So a configuration written with any spelling of its strings gives the tokenizer it describes. *)
Theorem C114_construct : forall load parse path cfg s c t j, source load path cfg (Some s) -> parse s = Some j -> respelled (render c) j -> config_ok c -> build c = Ok t ->
  construct load parse path cfg = finish_construction t.
Proof.
  intros load parse path cfg s c t j Hs Hp Hr Hc Hb. rewrite (construct_eq _ _ _ _ _ Hs), Hp, <- (C114_respelled _ _ Hr). destruct (render_describes c) as (o & Ho & Hd). rewrite Ho, (C79_round_trip _ _ Hd Hc), Hb. reflexivity.
Qed.
Print Assumptions C114_construct.

(** every kind of escape: the letter a, e acute, a face (as a surrogate pair, in mixed case), a line feed, a slash *)
Example C114_string_case : json_string (str "a\u00e9\uD83d\udE00\n\/") ([97; 0xC3; 0xA9; 0xF0; 0x9F; 0x98; 0x80; 10; 47]%N) /\ (forall s, ~ json_string (str "\uDE00") s) /\ (forall s, ~ json_string (str "\q") s).
Proof. split; [apply unescape_iff; reflexivity|]. split; apply unescape_none; reflexivity. Qed.
(** a Prepend normalizer whose type and text are spelled with escapes, the latter U+2581 *)
Definition spelling_config : config := mkConfig None None None (Some (NPrepend [0xE2; 0x96; 0x81]%N)) None None None None.
Definition spelling_doc : json :=
  JObj [jkey "version" (jname "\u0031.0"); jkey "truncation" JNull; jkey "padding" JNull; jkey "added_tokens" JNull; jkey "normalizer" (JObj [jkey "type" (jname "\u0050repen\u0064"); jkey "prepend" (jname "\u2581")]);
        jkey "pre_tokenizer" JNull; jkey "post_processor" JNull; jkey "decoder" JNull; jkey "model" JNull].
Example C114_case : config_ok spelling_config /\ respelled (render spelling_config) spelling_doc /\ read_config spelling_doc = build spelling_config.
Proof.
  assert (R : respelled (render spelling_config) spelling_doc).
  { assert (K : forall raw raw', unescape raw = unescape raw' -> respelled (JStr raw) (JStr raw')) by (intros raw raw' H; apply rs_str; intros s; rewrite <- !unescape_iff, H; tauto).
    apply rs_obj. constructor; [split; [reflexivity | apply K; reflexivity]|]. do 3 (constructor; [split; [reflexivity | apply rs_same]|]). constructor; [split; [reflexivity|]|].
    - apply rs_obj. constructor; [split; [reflexivity | apply K; reflexivity]|]. constructor; [split; [reflexivity | apply K; reflexivity]|]. constructor.
    - do 4 (constructor; [split; [reflexivity | apply rs_same]|]). constructor. }
  split; [repeat split|]. split; [exact R|]. reflexivity.
Qed.
