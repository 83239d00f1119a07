(** C73-C75, C79: reading tokenizer.json. *)
From Verif Require Import Base BaseFacts Unicode Common Utils PostProcessor Decoder Normalizer PreTokenizer WordPiece Bpe AddedVocab Tokenizer Config EscSpec EscProofs ConfigSpec ConfigProofs Env.

(** ** C73: malformed configurations are errors *)
(** neither a path nor a configuration *)
Theorem C73_no_source load parse : construct load parse [] [] = Throw InvalidArgument.
Proof. reflexivity. Qed.
Print Assumptions C73_no_source.

(** the text a constructor call reads: the file under the path if there is one, else the configuration; [doc] is its JSON value *)
Definition source (load : bytes -> option bytes) (path config : bytes) (text : option bytes) : Prop :=
  (path <> [] /\ text = load (path ++ str "/tokenizer.json")) \/ (path = [] /\ config <> [] /\ text = Some config).
Lemma construct_eq load parse path config text : source load path config text ->
  construct load parse path config =
  (t <- catch_all (match text with None => Throw SimdjsonError | Some s => match parse s with None => Throw SimdjsonError | Some doc => read_config doc end end) ;; finish_construction t).
Proof.
  unfold construct. intros [(Hp & ->) | (-> & Hc & ->)].
  - destruct path as [|b p]; [congruence|]. cbn [is_nil negb andb]. destruct (load _) as [s|]; cbn [bind]; [destruct (parse s); reflexivity | reflexivity].
  - destruct config as [|b c]; [congruence|]. cbn [is_nil negb andb bind]. destruct (parse (b :: c)); reflexivity.
Qed.
(** a file that cannot be read, or a text that is not JSON *)
Theorem C73_unreadable load parse path config text : source load path config text -> (text = None \/ exists s, text = Some s /\ parse s = None) ->
  construct load parse path config = Throw RuntimeError.
Proof. intros Hs H. rewrite (construct_eq _ _ _ _ _ Hs). destruct H as [-> | (s & -> & ->)]; reflexivity. Qed.
Print Assumptions C73_unreadable.

(** a document that is not an object, lacks a key, or has a malformed component (anywhere, also inside sequences) *)
Theorem C73_malformed_rejected load parse path config s doc : source load path config (Some s) -> parse s = Some doc ->
  (~ is_obj (fun o => forall k, In k top_keys -> exists v, has o k v /\ (v = JNull \/ ~ malformed k v)) doc) ->
  construct load parse path config = Throw RuntimeError.
Proof.
  intros Hs Hp Hm. rewrite (construct_eq _ _ _ _ _ Hs), Hp. pose proof (safe_read doc) as HS. destruct (read_config doc) as [t|e| |] eqn:E; try destruct HS; [|reflexivity].
  exfalso. apply Hm. destruct (read_ok _ _ E) as (o & -> & Ho). exists o. split; [reflexivity | exact Ho].
Qed.
Print Assumptions C73_malformed_rejected.
Corollary C73_missing_key load parse path config s o k : source load path config (Some s) -> parse s = Some (JObj o) -> In k top_keys -> lacks o k ->
  construct load parse path config = Throw RuntimeError.
Proof.
  intros Hs Hp Hk Hl. eapply C73_malformed_rejected; eauto. intros (o' & Ho & H). injection Ho as <-. destruct (H k Hk) as (v & Hv & _). apply field_has in Hv. rewrite (field_lacks _ _ Hl) in Hv. discriminate.
Qed.
Print Assumptions C73_missing_key.
Corollary C73_malformed_component load parse path config s o k v : source load path config (Some s) -> parse s = Some (JObj o) -> In k top_keys -> has o k v -> v <> JNull -> malformed k v ->
  construct load parse path config = Throw RuntimeError.
Proof.
  intros Hs Hp Hk Hv Hn Hm. eapply C73_malformed_rejected; eauto. intros (o' & Ho & H). injection Ho as <-. destruct (H k Hk) as (w & Hw & HM). rewrite (has_fun _ _ _ _ Hw Hv) in HM. destruct HM; contradiction.
Qed.
Print Assumptions C73_malformed_component.

(** no other exception escapes from reading the document, and reading always ends *)
Theorem C73_only_these load parse path config :
  construct load parse path config = Throw InvalidArgument /\ path = [] /\ config = [] \/
  construct load parse path config = Throw RuntimeError \/
  exists s doc t, source load path config (Some s) /\ parse s = Some doc /\ read_config doc = Ok t /\ construct load parse path config = finish_construction t.
Proof.
  destruct (is_nil path && is_nil config) eqn:E.
  - left. destruct path, config; try discriminate. repeat split.
  - right. assert (Hs : exists text, source load path config text).
    { destruct path as [|b p]; [destruct config as [|b c]; [discriminate|]; exists (Some (b :: c)); right; repeat split; discriminate | eexists; left; split; [discriminate | reflexivity]]. }
    destruct Hs as (text & Hs). rewrite (construct_eq _ _ _ _ _ Hs). destruct text as [s|]; [|left; reflexivity]. destruct (parse s) as [doc|] eqn:Ep; [|left; reflexivity].
    pose proof (safe_read doc) as HS. destruct (read_config doc) as [t|e| |] eqn:Er; try destruct HS; [right | left; reflexivity]. exists s, doc, t. repeat split; try assumption; reflexivity.
Qed.
Print Assumptions C73_only_these.

(** ** C79: a configuration in the documented format yields the tokenizer it describes *)
(** [o] holds the components of [c]; other keys and the order of keys do not matter *)
Definition describes (o : list (bytes * json)) (c : config) : Prop :=
  has o "truncation" (jopt render_trunc (cf_trunc c)) /\ has o "padding" (jopt render_pad (cf_pad c)) /\
  has o "added_tokens" (jopt (fun l => JArr (map render_added l)) (cf_added c)) /\ has o "normalizer" (jopt render_norm (cf_norm c)) /\
  has o "pre_tokenizer" (jopt render_pre (cf_pre c)) /\ has o "post_processor" (jopt render_post (cf_post c)) /\
  has o "decoder" (jopt render_dec (cf_dec c)) /\ has o "model" (jopt render_model (cf_model c)).
Lemma depth_has o k j : has o k j -> json_depth j < json_depth (JObj o).
Proof. intros (b & a & -> & _). apply (depth_obj _ (str k)). apply in_or_app. right. left. reflexivity. Qed.
Lemma component_some {A} o k (get : json -> res (option A)) j r : has o k j -> j <> JNull -> get j = r -> component o k get = r.
Proof. intros H Hn <-. apply field_has in H. unfold component. rewrite H. cbn [bind]. destruct j; [congruence | reflexivity ..]. Qed.
Lemma component_null {A} o k (get : json -> res (option A)) : has o k JNull -> component o k get = Ok None.
Proof. intros H. apply field_has in H. unfold component. rewrite H. reflexivity. Qed.
Theorem C79_round_trip o c : describes o c -> config_ok c -> read_config (JObj o) = build c.
Proof.
  intros (H1 & H2 & H3 & H4 & H5 & H6 & H7 & H8) (K1 & K2 & K3 & K4 & K5 & K6). destruct c as [tr pd ad no pt md de pp]. cbn [cf_trunc cf_pad cf_added cf_norm cf_pre cf_post cf_dec cf_model] in *.
  assert (F : forall k j, has o k j -> json_depth j < S (json_depth (JObj o))) by (intros k j H; apply depth_has in H; lia).
  unfold read_config. cbv zeta. remember (S (json_depth (JObj o))) as n. cbn [get_object bind].
  assert (C1 : component o "truncation" (fun j => l <- get_object j ;; t <- with_truncation l ;; Ok (Some t)) = Ok tr).
  { destruct tr as [t|]; [|apply component_null; exact H1]. destruct (rt_truncation _ K1) as (l & Hl & Ht). cbn [jopt] in H1. rewrite Hl in H1. apply (component_some _ _ _ _ _ H1); [discriminate|]. cbn [get_object bind]. rewrite Ht. reflexivity. }
  assert (C2 : component o "padding" (fun j => l <- get_object j ;; t <- with_padding l ;; Ok (Some t)) = Ok pd).
  { destruct pd as [t|]; [|apply component_null; exact H2]. destruct (rt_padding _ K2) as (l & Hl & Ht). cbn [jopt] in H2. rewrite Hl in H2. apply (component_some _ _ _ _ _ H2); [discriminate|]. cbn [get_object bind]. rewrite Ht. reflexivity. }
  assert (C3 : component o "added_tokens" (fun j => l <- get_array j ;; a <- with_added_vocabulary l ;; Ok (Some a)) = Ok (option_map new_added_vocab ad)).
  { destruct ad as [t|]; [|apply component_null; exact H3]. apply (component_some _ _ _ _ _ H3); [discriminate|]. cbn [jopt get_array bind]. rewrite (rt_added _ K3). reflexivity. }
  assert (C4 : component o "normalizer" (with_normalizer n) = Ok no).
  { destruct no as [t|]; [|apply component_null; exact H4]. apply (component_some _ _ _ _ _ H4); [destruct t as [? ? ? ?|[]| | | | |]; discriminate|]. apply rt_normalizer. apply (F _ _ H4). }
  assert (C5 : component o "pre_tokenizer" (with_pre_tokenizer n) = Ok pt).
  { destruct pt as [t|]; [|apply component_null; exact H5]. apply (component_some _ _ _ _ _ H5); [destruct t; discriminate|]. apply rt_pre. apply (F _ _ H5). }
  assert (C6 : component o "model" with_model = (b <- match md with Some m => m' <- build_model m ;; Ok (Some m') | None => Ok None end ;; Ok b)).
  { destruct md as [t|]; [|apply component_null; exact H8]. apply (component_some _ _ _ _ _ H8); [destruct t; discriminate|]. cbn [jopt]. rewrite (rt_model _ K4). destruct (build_model t); reflexivity. }
  assert (C7 : component o "decoder" (with_decoder n) = Ok de).
  { destruct de as [t|]; [|apply component_null; exact H7]. apply (component_some _ _ _ _ _ H7); [destruct t; discriminate|]. apply rt_decoder; [exact K5|]. apply (F _ _ H7). }
  assert (C8 : component o "post_processor" (with_post_processor n) = Ok pp).
  { destruct pp as [t|]; [|apply component_null; exact H6]. apply (component_some _ _ _ _ _ H6); [destruct t; discriminate|]. apply rt_post; [exact K6|]. apply (F _ _ H6). }
  rewrite C1. cbn [bind]. rewrite C2. cbn [bind]. rewrite C3. cbn [bind]. rewrite C4. cbn [bind]. rewrite C5. cbn [bind]. rewrite C6. unfold build. cbn [cf_trunc cf_pad cf_added cf_norm cf_pre cf_post cf_dec cf_model].
  destruct (match md with Some m => m' <- build_model m ;; Ok (Some m') | None => Ok None end) as [m| | |]; cbn [bind]; try reflexivity. rewrite C7. cbn [bind]. rewrite C8. reflexivity.
Qed.
Print Assumptions C79_round_trip.
Lemma render_describes c : exists o, render c = JObj o /\ describes o c.
Proof. eexists. split; [reflexivity|]. unfold describes. repeat split; unfold jkey; repeat first [apply has_here | apply has_there; [cbn [fst]; discriminate|]]. Qed.
(** the whole constructor *)
Theorem C79_construct load parse path cfg s c t : source load path cfg (Some s) -> parse s = Some (render c) -> config_ok c -> build c = Ok t ->
  construct load parse path cfg = finish_construction t.
Proof.
  intros Hs Hp Hc Hb. rewrite (construct_eq _ _ _ _ _ Hs), Hp. destruct (render_describes c) as (o & -> & Ho). rewrite (C79_round_trip _ _ Ho Hc), Hb. reflexivity.
Qed.
Print Assumptions C79_construct.

(** ** C74: keys of the vocabulary *)
(** Full claim: the token of a vocabulary entry is the JSON string value of its key. *)
Definition knows (t : tokenizer) (token : bytes) (id : Z) : Prop :=
  match tz_model t with Some m => sfind token (model_vocab m) = Some id | None => False end.
Lemma ints_find l : forall m v k, foldM (fun m p => n <- get_int (snd p) ;; Ok (sinsert (fst p) n m)) m l = Ok v ->
  sfind k v = match sfind k m with Some z => Some z | None => match sfind k l with Some (JInt z) => Some (to_int z) | _ => None end end.
Proof.
  induction l as [|[k' j] l IH]; intros m v k H; [injection H as <-; cbn; destruct (sfind k m); reflexivity|]. cbn [foldM fst snd] in H. apply bind_ok in H as (m' & H1 & H). apply bind_ok in H1 as (z & Hz & H1). injection H1 as <-.
  rewrite (IH _ _ k H). assert (Hj : exists w, j = JInt w /\ z = to_int w).
  { destruct j; try discriminate. unfold get_int in Hz. destruct (_ && _); [|discriminate]. injection Hz as <-. eexists. split; reflexivity. }
  destruct Hj as (w & -> & ->). cbn [sfind]. unfold sinsert. destruct (sfind k' m) as [y|] eqn:E.
  - destruct (sfind k m) as [x|] eqn:Ek; [reflexivity|]. destruct (leqb_spec k k') as [->|Hk]; [congruence|]. reflexivity.
  - rewrite sfind_app. destruct (sfind k m) as [x|]; [reflexivity|]. cbn [sfind]. destruct (leqb k k'); reflexivity.
Qed.
Lemma read_vocab doc o mo l t : doc = JObj o -> has o "model" (JObj mo) -> has mo "vocab" (JObj l) -> read_config doc = Ok t ->
  forall m, tz_model t = Some m -> forall k, sfind k (model_vocab m) = match sfind k l with Some (JInt z) => Some (to_int z) | _ => None end.
Proof.
  intros -> Hm Hv H m Ht k. unfold read_config in H. cbv zeta in H. cbn [get_object bind] in H. do 8 (apply bind_ok in H as (? & ?H & H)). injection H as <-. cbn [tz_model] in Ht. subst.
  match goal with HC : component _ "model" _ = Ok _ |- _ => apply component_ok in HC as (j & Hj & [[_ HR]|HR]) end; [discriminate|].
  rewrite (has_fun _ _ _ _ Hj Hm) in HR. unfold with_model in HR. cbn [get_object bind] in HR. apply bind_ok in HR as (tj & _ & HR). apply bind_ok in HR as (ty & _ & HR). rewrite (proj2 (field_has _ _ _) Hv) in HR.
  cbn [bind or_default get_object] in HR. apply bind_ok in HR as (v & Hvv & HR). apply ints_find with (k := k) in Hvv. cbn [sfind] in Hvv.
  destruct (leqb ty (str "WordPiece")).
  - do 3 (apply bind_ok in HR as (? & _ & HR)). injection HR as <-. exact Hvv.
  - destruct (leqb ty (str "BPE")); [|discriminate]. do 10 (apply bind_ok in HR as (? & _ & HR)). apply bind_ok in HR as (b & Hb & HR). injection HR as <-. unfold new_bpe in Hb. apply bind_ok in Hb as (mm & _ & Hb). injection Hb as <-. exact Hvv.
Qed.
(** exactly which tokens are known: the raw texts of the keys, the first of equal keys counting; ids are cut to 32 bits *)
Theorem C74_vocabulary_exactly doc o mo l t : doc = JObj o -> has o "model" (JObj mo) -> has mo "vocab" (JObj l) -> read_config doc = Ok t -> tz_model t <> None ->
  forall k id, knows t k id <-> exists a z b, l = a ++ (k, JInt z) :: b /\ ~ In k (map fst a) /\ id = ((z + 2 ^ 31) mod 2 ^ 32 - 2 ^ 31)%Z.
Proof.
  intros Hd Ho Hv Hr Ht k id. unfold knows. destruct (tz_model t) as [m|] eqn:Em; [|congruence]. rewrite (read_vocab _ _ _ _ _ Hd Ho Hv Hr m Em). clear. split.
  - induction l as [|[k' j] l IH]; cbn [sfind]; [discriminate|]. destruct (leqb_spec k k') as [<-|Hk].
    + destruct j; try discriminate. intros H. injection H as <-. eexists [], _, l. split; [reflexivity|]. split; [intros []|reflexivity].
    + intros H. destruct (IH H) as (a & z & b & -> & Ha & Hz). exists ((k', j) :: a), z, b. split; [reflexivity|]. split; [|exact Hz]. intros [E|E]; [cbn [fst] in E; congruence | contradiction].
  - intros (a & z & b & -> & Ha & ->). rewrite sfind_app, (proj2 (sfind_none k a) Ha). cbn [sfind]. replace (leqb k k) with true by (symmetry; apply leqb_iff; reflexivity). reflexivity.
Qed.
Print Assumptions C74_vocabulary_exactly.
(** true for keys without escapes (a JSON string with no backslash is its own value); the first of equal keys counts *)
Theorem C74_unescaped doc o mo a b k z t : doc = JObj o -> has o "model" (JObj mo) -> has mo "vocab" (JObj (a ++ (k, JInt z) :: b)) ->
  read_config doc = Ok t -> tz_model t <> None -> Forall (fun x => x <> 92%N) k -> ~ In k (map fst a) -> int32 z ->
  unescape k = Some k /\ knows t k z.
Proof.
  intros Hd Ho Hv Hr Ht Hk Ha Hz. split; [apply unescape_no_backslash; [exact Hk | lia]|]. unfold knows. destruct (tz_model t) as [m|] eqn:Em; [|congruence].
  rewrite (read_vocab _ _ _ _ _ Hd Ho Hv Hr m Em). rewrite sfind_app. rewrite (proj2 (sfind_none k a) Ha). cbn [sfind]. replace (leqb k k) with true by (symmetry; apply leqb_iff; reflexivity). f_equal.
  unfold int32 in Hz. unfold to_int. rewrite Z.mod_small by lia. lia.
Qed.
Print Assumptions C74_unescaped.
(** a token whose value is not the raw text of some key is never known: keys keep their backslashes *)
Theorem C74_escaped_keys_refuted doc o mo l t k s : doc = JObj o -> has o "model" (JObj mo) -> has mo "vocab" (JObj l) -> read_config doc = Ok t ->
  In k (map fst l) -> unescape k = Some s -> ~ In s (map fst l) -> forall id, ~ knows t s id.
Proof.
  intros Hd Ho Hv Hr _ _ Hs id Hk. unfold knows in Hk. destruct (tz_model t) as [m|] eqn:Em; [|exact Hk]. rewrite (read_vocab _ _ _ _ _ Hd Ho Hv Hr m Em) in Hk.
  rewrite (proj2 (sfind_none s l) Hs) in Hk. discriminate.
Qed.
Print Assumptions C74_escaped_keys_refuted.
(** so the double quote, which JSON has to write with a backslash, is encoded as the unknown token *)
Definition quote_doc : json :=
  JObj [jkey "truncation" JNull; jkey "padding" JNull; jkey "added_tokens" (JArr []); jkey "normalizer" JNull; jkey "pre_tokenizer" (jobj "BertPreTokenizer" []); jkey "post_processor" JNull; jkey "decoder" JNull;
        jkey "model" (jobj "WordPiece" [jkey "unk_token" (jname "[UNK]"); jkey "max_input_chars_per_word" (jint 100); jkey "continuing_subword_prefix" (jname "##");
                                        jkey "vocab" (JObj [(str "[UNK]", jint 0); (quote [34%N], jint 5); (str "a", jint 6)])])].
Theorem C74_double_quote_refuted : exists t, read_config quote_doc = Ok t /\
  (forall id, ~ knows t [34%N] id) /\ knows t [92%N; 34%N] 5 /\
  match snd (encode test_env 1 t [97; 34]%N false) with Ok e => en_ids e = [6; 0]%Z | _ => False end.
Proof.
  eexists. split; [vm_compute; reflexivity|]. split; [|split].
  - intros id H. vm_compute in H. discriminate.
  - vm_compute. reflexivity.
  - vm_compute. reflexivity.
Qed.
Print Assumptions C74_double_quote_refuted.

(** ** C75: unsupported component types *)
(** the component types that are understood *)
Definition supported : list (String.string * list String.string) :=
  [("normalizer", ["Sequence"; "NFC"; "NFD"; "NFKC"; "NFKD"; "Prepend"; "Replace"; "BertNormalizer"; "Strip"; "StripAccents"]);
   ("pre_tokenizer", ["BertPreTokenizer"; "Sequence"; "Split"; "ByteLevel"]);
   ("model", ["WordPiece"; "BPE"]);
   ("decoder", ["Sequence"; "WordPiece"; "Strip"; "Replace"; "ByteFallback"; "Fuse"; "ByteLevel"]);
   ("post_processor", ["TemplateProcessing"; "Sequence"; "ByteLevel"])].
(** whether the tokenizer has the component under a key *)
Definition has_component (t : tokenizer) (top : String.string) : bool :=
  match find (fun p => String.eqb (fst p) top) [("normalizer", match tz_norm t with Some _ => true | None => false end); ("pre_tokenizer", match tz_pre t with Some _ => true | None => false end);
    ("model", match tz_model t with Some _ => true | None => false end); ("decoder", match tz_dec t with Some _ => true | None => false end);
    ("post_processor", match tz_post t with Some _ => true | None => false end)] with Some p => snd p | None => false end.
Definition some {A} (o : option A) : bool := match o with Some _ => true | None => false end.
Lemma with_type {A} co ty (f : list (bytes * json) -> bytes -> res (option A)) r : has co "type" (JStr ty) ->
  (o <- get_object (JObj co) ;; tj <- field o "type" ;; ty <- get_string tj ;; f o ty) = Ok r -> exists s, unescape ty = Some s /\ f co s = Ok r.
Proof.
  intros Hty Hr. apply field_has in Hty. cbn [get_object bind] in Hr. rewrite Hty in Hr. cbn [bind] in Hr. apply bind_ok in Hr as (s & H1 & H2). exists s. split; [|exact H2].
  unfold get_string in H1. destruct (unescape ty); [congruence | discriminate].
Qed.
Ltac type_cases H := repeat (match type of H with (if leqb ?s (str ?k) then _ else _) = Ok _ => destruct (leqb_spec s (str k)) as [->|?]; cbv iota in H end);
  [ repeat match type of H with bind _ _ = Ok _ => apply bind_ok in H as (? & _ & H) end; injection H as <-; cbn [some]; split; [intros _; cbn [map In]; tauto | reflexivity] ..
  | injection H as <-; cbn [some]; split; [discriminate | cbn [map In]; intuition congruence] ].
Lemma type_norm n co ty r : has co "type" (JStr ty) -> with_normalizer n (JObj co) = Ok r ->
  exists s, unescape ty = Some s /\ (some r = true <-> In s (map str ["Sequence"; "NFC"; "NFD"; "NFKC"; "NFKD"; "Prepend"; "Replace"; "BertNormalizer"; "Strip"; "StripAccents"])).
Proof. destruct n as [|n]; [discriminate|]. intros Hty H. cbn [with_normalizer] in H. apply (with_type _ _ _ _ Hty) in H as (s & Hs & H). exists s. split; [exact Hs|]. type_cases H. Qed.
Lemma type_pre n co ty r : has co "type" (JStr ty) -> with_pre_tokenizer n (JObj co) = Ok r ->
  exists s, unescape ty = Some s /\ (some r = true <-> In s (map str ["BertPreTokenizer"; "Sequence"; "Split"; "ByteLevel"])).
Proof. destruct n as [|n]; [discriminate|]. intros Hty H. cbn [with_pre_tokenizer] in H. apply (with_type _ _ _ _ Hty) in H as (s & Hs & H). exists s. split; [exact Hs|]. type_cases H. Qed.
Lemma type_dec n co ty r : has co "type" (JStr ty) -> with_decoder n (JObj co) = Ok r ->
  exists s, unescape ty = Some s /\ (some r = true <-> In s (map str ["Sequence"; "WordPiece"; "Strip"; "Replace"; "ByteFallback"; "Fuse"; "ByteLevel"])).
Proof. destruct n as [|n]; [discriminate|]. intros Hty H. cbn [with_decoder] in H. apply (with_type _ _ _ _ Hty) in H as (s & Hs & H). exists s. split; [exact Hs|]. type_cases H. Qed.
Lemma type_post n co ty r : has co "type" (JStr ty) -> with_post_processor n (JObj co) = Ok r ->
  exists s, unescape ty = Some s /\ (some r = true <-> In s (map str ["TemplateProcessing"; "Sequence"; "ByteLevel"])).
Proof. destruct n as [|n]; [discriminate|]. intros Hty H. cbn [with_post_processor] in H. apply (with_type _ _ _ _ Hty) in H as (s & Hs & H). exists s. split; [exact Hs|]. type_cases H. Qed.
Lemma type_model co ty r : has co "type" (JStr ty) -> with_model (JObj co) = Ok r -> exists s, unescape ty = Some s /\ (some r = true <-> In s (map str ["WordPiece"; "BPE"])).
Proof.
  intros Hty H. unfold with_model in H. apply (with_type _ _ (fun o ty => _) _ Hty) in H as (s & Hs & H). exists s. split; [exact Hs|]. do 2 (apply bind_ok in H as (? & _ & H)). type_cases H.
Qed.
(** a document that is accepted has exactly the components whose type is supported: the other ones are dropped without an error *)
Theorem C75_dropped_silently_refuted o top names co ty t : read_config (JObj o) = Ok t -> In (top, names) supported -> has o top (JObj co) -> has co "type" (JStr ty) ->
  exists s, unescape ty = Some s /\ (has_component t top = true <-> In s (map str names)).
Proof.
  intros H Hs Hh Hty. unfold read_config in H. cbv zeta in H. remember (S (json_depth (JObj o))) as n. cbn [get_object bind] in H. do 8 (apply bind_ok in H as (? & ?H & H)). injection H as <-.
  repeat match goal with HC : component _ _ _ = Ok _ |- _ => apply component_ok in HC as (? & ? & HC) end.
  cbn [In supported] in Hs. repeat (destruct Hs as [Hs|Hs]); try contradiction; injection Hs as <- <-.
  all: match goal with H1 : has ?oo ?k ?j, H2 : has ?oo ?k (JObj _) |- _ => rewrite (has_fun _ _ _ _ H1 H2) in *; clear H1 end.
  all: match goal with HC : JObj _ = JNull /\ _ \/ _ |- _ => destruct HC as [[HC _]|HC]; [discriminate HC|] end.
  all: [> eapply type_norm | eapply type_pre | eapply type_model | eapply type_dec | eapply type_post ]; eassumption.
Qed.
Print Assumptions C75_dropped_silently_refuted.
(** for example this decoder is ignored, and the tokenizer cannot decode at all *)
Theorem C75_decoder_refuted : exists o t, has o "decoder" (jobj "BPEDecoder" [jkey "suffix" (jname "</w>")]) /\ read_config (JObj o) = Ok t /\ tz_dec t = None /\
  match decode t [6%Z] false with Undef _ => True | _ => False end.
Proof.
  exists [jkey "truncation" JNull; jkey "padding" JNull; jkey "added_tokens" (JArr []); jkey "normalizer" JNull; jkey "pre_tokenizer" JNull; jkey "post_processor" JNull;
        jkey "decoder" (jobj "BPEDecoder" [jkey "suffix" (jname "</w>")]);
        jkey "model" (jobj "WordPiece" [jkey "unk_token" (jname "[UNK]"); jkey "max_input_chars_per_word" (jint 100); jkey "continuing_subword_prefix" (jname "##");
                                        jkey "vocab" (JObj [(str "[UNK]", jint 0); (str "a", jint 6)])])].
  eexists. split; [unfold jkey; repeat first [apply has_here | apply has_there; [cbn [fst]; discriminate|]]|]. split; [vm_compute; reflexivity|]. split; [reflexivity|]. vm_compute. exact I.
Qed.
Print Assumptions C75_decoder_refuted.
(** true: every supported type gives the component (a document that is accepted) *)
Theorem C75_supported o top names co name t : read_config (JObj o) = Ok t -> In (top, names) supported -> In name names -> has o top (JObj co) -> has co "type" (jname name) -> has_component t top = true.
Proof.
  intros H Hs Hn Hh Hty. destruct (C75_dropped_silently_refuted _ _ _ _ _ _ H Hs Hh Hty) as (s & E & Hi). apply Hi.
  cbn [In supported] in Hs. repeat (destruct Hs as [Hs|Hs]); try contradiction; injection Hs as <- <-; cbn [In] in Hn; repeat (destruct Hn as [Hn|Hn]); try contradiction; subst name;
    vm_compute in E; injection E as <-; cbn [map In]; tauto.
Qed.
Print Assumptions C75_supported.

(** ** Cases *)
(** a complete configuration in the documented format, and what is made of it *)
Definition case_config : config :=
  mkConfig (Some (mkTrunc TRight LongestFirst 128 0)) (Some (mkPad PRight BatchLongest (-1) 0 0 (str "[PAD]") 8)) (Some [mkAt 1 (str "[CLS]") false false false false true])
           (Some (NSequence [NBert true true false true; NReplace (str "``") [34%N]])) (Some (TSequence [TBert; TSplit (str "\d") ISOLATED false]))
           (Some (CWordPiece (mkWp [(str "[UNK]", 0%Z); (str "[CLS]", 1%Z); (str "hello", 2%Z)] (str "[UNK]") 100 (str "##"))))
           (Some (DWordPiece (str "##") true)) (Some (PTemplate [mkPiece (str "SpecialToken") (str "[CLS]") 0; mkPiece (str "Sequence") (str "A") 0] [mkSpecial (str "[CLS]") [1%Z] [str "[CLS]"]])).
Lemma case_config_ok : config_ok case_config.
Proof.
  unfold config_ok, case_config, opt_ok, trunc_ok, pad_ok, model_ok, vocab_ok, dec_ok, post_ok, int32, plain. cbn [cf_trunc cf_pad cf_added cf_model cf_dec cf_post t_max t_stride p_id p_type_id p_multiple p_fixed p_strat wp_vocab wp_max map fst snd].
  assert (HP : forall s, forallb (fun b => negb (b =? 34) && negb (b =? 92) && (32 <=? b))%N s = true -> Forall (fun b => b <> 34%N /\ b <> 92%N /\ (32 <= b)%N) s).
  { intros s H. apply Forall_forall. intros b Hb. rewrite forallb_forall in H. specialize (H b Hb). lia. }
  repeat match goal with |- _ /\ _ => split | |- True => exact I | |- Forall _ (_ :: _) => apply Forall_cons | |- Forall _ [] => apply Forall_nil end; cbn [fst snd at_id pc_type st_ids]; try lia; try reflexivity; try (apply HP; reflexivity).
  - repeat constructor; cbn; intuition discriminate.
  - repeat (apply Forall_cons; [lia|]). apply Forall_nil.
Qed.
Example C79_case : exists t, build case_config = Ok t /\ read_config (render case_config) = Ok t /\ tz_norm t = Some (NSequence [NBert true true false true; NReplace (str "``") [34%N]]).
Proof.
  destruct (render_describes case_config) as (o & Ho & Hd). eexists. split; [reflexivity|]. split; [|reflexivity]. rewrite Ho. rewrite (C79_round_trip _ _ Hd case_config_ok). reflexivity.
Qed.
(** a normalizer inside a sequence whose prepend is not a string *)
Example C73_malformed_case : malformed "normalizer" (jobj "Sequence" [jkey "normalizers" (JArr [jobj "NFC" []; jobj "Prepend" [jkey "prepend" (JBool true)]])]).
Proof.
  eapply mf_element with (key := "normalizers") (x := jobj "Prepend" [jkey "prepend" (JBool true)]); [find_key | left; reflexivity | find_key | right; left; reflexivity |].
  eapply mf_keys with (name := "Prepend"); [find_key | right; left; reflexivity |]. constructor. right. exists (JBool true). split; [find_key|]. split; [discriminate|]. intros (raw & s & H & _). discriminate.
Qed.
(** a lone surrogate in a string; an integer outside 64 bits *)
Example C73_escape_case : malformed "normalizer" (jobj "Prepend" [jkey "prepend" (jname "a\uD83D")]) /\
  malformed "truncation" (JObj [jkey "direction" (jname "Right"); jkey "strategy" (jname "LongestFirst"); jkey "max_length" (JInt (2 ^ 63)); jkey "stride" (JInt 0)]).
Proof.
  split.
  - eapply mf_keys with (name := "Prepend"); [find_key | right; left; reflexivity |]. constructor. right. exists (jname "a\uD83D"). split; [find_key|]. split; [discriminate|].
    intros (raw & s & H & Hs). injection H as <-. apply unescape_iff in Hs. discriminate.
  - eapply mf_plain; [left; reflexivity|]. apply Exists_cons_tl, Exists_cons_tl, Exists_cons_hd. right. exists (JInt (2 ^ 63)). split; [find_key|]. split; [discriminate|]. intros (z & H & Hz). injection H as <-. lia.
Qed.
Example C73_case : construct (fun _ => None) (fun _ => Some (JObj [jkey "truncation" JNull])) [] (str "{truncation: null}") = Throw RuntimeError.
Proof.
  eapply C73_missing_key with (k := "padding"); [right; split; [reflexivity|split; [discriminate|reflexivity]] | reflexivity | cbn; tauto |]. unfold lacks. vm_compute. intuition discriminate.
Qed.
