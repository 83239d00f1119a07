(** What null means in a configuration (C113). *)
From Verif Require Import Base BaseFacts Unicode Common Utils PostProcessor Decoder Normalizer PreTokenizer WordPiece Bpe AddedVocab Tokenizer Config ConfigSpec ConfigProofs NullSpec PropsConfig Env.

Definition agree (e : String.string * kind) (o o' : list (bytes * json)) : Prop :=
  exists v v', has o (fst e) v /\ has o' (fst e) v' /\ (v' = v \/ v = JNull /\ v' = default_of (snd e)).
Ltac both H := destruct H as (v & v' & H1 & H2 & H); cbn [fst snd] in *; apply field_has in H1; apply field_has in H2; rewrite H1, H2; cbn [bind]; destruct H as [-> | [-> ->]]; reflexivity.
Lemma agree_str k o o' : agree (k, KStr) o o' -> str_field o k = str_field o' k.
Proof. intros H. unfold str_field. both H. Qed.
Lemma agree_bool k o o' : agree (k, KBool) o o' -> bool_field o k = bool_field o' k.
Proof. intros H. unfold bool_field. both H. Qed.
Lemma agree_int k o o' : agree (k, KInt) o o' -> int_field o k = int_field o' k.
Proof. intros H. unfold int_field. both H. Qed.
Lemma agree_in k k' o o' {B} (f : bytes -> res B) : agree (k, KIn k') o o' ->
  (j <- field o k ;; p <- or_default [] (fun j => s <- subfield j k' ;; get_string s) j ;; f p) = (j <- field o' k ;; p <- or_default [] (fun j => s <- subfield j k' ;; get_string s) j ;; f p).
Proof.
  intros (v & v' & H1 & H2 & H). cbn [fst snd] in *. apply field_has in H1. apply field_has in H2. rewrite H1, H2. cbn [bind]. destruct H as [-> | [-> ->]]; [reflexivity|]. cbn [default_of or_default].
  unfold subfield. cbn [get_object bind]. rewrite (proj2 (field_has _ k' _) (has_here k' (JStr []) [])). reflexivity.
Qed.
Lemma agree_ids k o o' {B} (f : smap Z -> res B) : agree (k, KIds) o o' ->
  (j <- field o k ;; p <- or_default [] (fun j => l <- get_object j ;; get_map_ints_from_json l) j ;; f p) = (j <- field o' k ;; p <- or_default [] (fun j => l <- get_object j ;; get_map_ints_from_json l) j ;; f p).
Proof. intros H. both H. Qed.
Lemma agree_strs k o o' {B} (f : list bytes -> res B) : agree (k, KStrs) o o' ->
  (j <- field o k ;; p <- or_default [] (fun j => l <- get_array j ;; mapM get_string l) j ;; f p) = (j <- field o' k ;; p <- or_default [] (fun j => l <- get_array j ;; mapM get_string l) j ;; f p).
Proof. intros H. both H. Qed.
Lemma agree_num k o o' {B} (f : QArith_base.Q -> res B) : agree (k, KNum) o o' ->
  (j <- field o k ;; p <- or_default (QArith_base.Qmake 0 1) get_float j ;; f p) = (j <- field o' k ;; p <- or_default (QArith_base.Qmake 0 1) get_float j ;; f p).
Proof. intros H. both H. Qed.
Lemma agree_strategy k o o' {B} (f : bytes * Z -> res B) : agree (k, KStrategy) o o' ->
  (j <- field o k ;; p <- padding_strategy j ;; f p) = (j <- field o' k ;; p <- padding_strategy j ;; f p).
Proof. intros H. both H. Qed.
Lemma agree_pieces k o o' {B} (f : list piece -> res B) : agree (k, KPieces) o o' -> (j <- field o k ;; p <- template_list j ;; f p) = (j <- field o' k ;; p <- template_list j ;; f p).
Proof. intros H. both H. Qed.
Lemma agree_specials k o o' {B} (f : list special_token -> res B) : agree (k, KSpecials) o o' ->
  (j <- field o k ;; p <- or_default [] (fun j => l <- get_object j ;; mapM template_special l) j ;; f p) = (j <- field o' k ;; p <- or_default [] (fun j => l <- get_object j ;; mapM template_special l) j ;; f p).
Proof. intros H. both H. Qed.
Lemma bind_ext {A B} (r : res A) (f g : A -> res B) : (forall x, f x = g x) -> bind r f = bind r g.
Proof. intros H. destruct r; cbn; congruence. Qed.
Lemma spelled_cons e l o o' : spelled_out (e :: l) o o' -> agree e o o' /\ spelled_out l o o'.
Proof. intros H. split; [exact (Forall_inv H) | exact (Forall_inv_tail H)]. Qed.
Ltac agrees := repeat match goal with H : spelled_out (_ :: _) _ _ |- _ => apply spelled_cons in H; let A := fresh "A" in destruct H as [A H] end.
Ltac keyed := repeat match goal with
  | |- ?x = ?x => reflexivity
  | A : agree (?k, KStr) ?o ?o' |- bind (str_field ?o ?k) _ = _ => rewrite (agree_str _ _ _ A); apply bind_ext; intro
  | A : agree (?k, KBool) ?o ?o' |- bind (bool_field ?o ?k) _ = _ => rewrite (agree_bool _ _ _ A); apply bind_ext; intro
  | A : agree (?k, KInt) ?o ?o' |- bind (int_field ?o ?k) _ = _ => rewrite (agree_int _ _ _ A); apply bind_ext; intro
  | A : agree (?k, KIn _) ?o ?o' |- bind (field ?o ?k) _ = _ => rewrite (agree_in _ _ _ _ _ A); apply bind_ext; intro; apply bind_ext; intro
  | A : agree (?k, KIds) ?o ?o' |- bind (field ?o ?k) _ = _ => rewrite (agree_ids _ _ _ _ A); apply bind_ext; intro; apply bind_ext; intro
  | A : agree (?k, KStrs) ?o ?o' |- bind (field ?o ?k) _ = _ => rewrite (agree_strs _ _ _ _ A); apply bind_ext; intro; apply bind_ext; intro
  | A : agree (?k, KNum) ?o ?o' |- bind (field ?o ?k) _ = _ => rewrite (agree_num _ _ _ _ A); apply bind_ext; intro; apply bind_ext; intro
  | A : agree (?k, KStrategy) ?o ?o' |- bind (field ?o ?k) _ = _ => rewrite (agree_strategy _ _ _ _ A); apply bind_ext; intro; apply bind_ext; intros [? ?]
  | A : agree (?k, KPieces) ?o ?o' |- bind (field ?o ?k) _ = _ => rewrite (agree_pieces _ _ _ _ A); apply bind_ext; intro; apply bind_ext; intro
  | A : agree (?k, KSpecials) ?o ?o' |- bind (field ?o ?k) _ = _ => rewrite (agree_specials _ _ _ _ A); apply bind_ext; intro; apply bind_ext; intro
  end.
Lemma filled_truncation o o' keys : In ("truncation", keys) required_plain -> spelled_out keys o o' -> with_truncation o = with_truncation o'.
Proof. intros Hi H. in_cases Hi. injection Hi as <-. agrees. unfold with_truncation. keyed. Qed.
Lemma filled_padding o o' keys : In ("padding", keys) required_plain -> spelled_out keys o o' -> with_padding o = with_padding o'.
Proof. intros Hi H. in_cases Hi. injection Hi as <-. agrees. unfold with_padding. keyed. Qed.

(** Reading a component does not depend on the bound of its nesting, once that is large enough. *)
Lemma with_list_ext {A} (f g : json -> res (option A)) l l' : Forall2 (fun x y => f x = g y) l l' -> with_list f l = with_list g l'.
Proof.
  intros H. unfold with_list. assert (HM : mapM f l = mapM g l'); [|rewrite HM; reflexivity]. induction H as [|x y l l' Hx H IH]; [reflexivity|]. cbn [mapM]. rewrite Hx. apply bind_ext. intros z. rewrite IH. reflexivity.
Qed.
Lemma list_same {A} (P : A -> A -> Prop) l : (forall x, In x l -> P x x) -> Forall2 P l l.
Proof. induction l as [|x l IH]; intros H; constructor; [apply H; left; reflexivity | apply IH; intros y Hy; apply H; right; exact Hy]. Qed.
Ltac fuel_case IH k := intros f' j H H'; destruct f' as [|f']; [lia|];
  cbn [with_normalizer with_pre_tokenizer with_decoder with_post_processor];
  destruct (get_object j) as [o| | |] eqn:Eo; cbn [bind]; try reflexivity;
  destruct (field o "type") as [tj| | |] eqn:Et; cbn [bind]; try reflexivity;
  destruct (get_string tj) as [ty| | |]; cbn [bind]; try reflexivity;
  repeat match goal with |- (if ?b then _ else _) = (if ?b then _ else _) => destruct b; try reflexivity end;
  destruct (field o k) as [a| | |] eqn:Ea; cbn [bind]; try reflexivity;
  destruct (get_array a) as [l| | |] eqn:El; cbn [bind]; try reflexivity;
  erewrite with_list_ext; [reflexivity|]; apply list_same; intros x Hx; apply IH;
  [exact (list_depth o _ a l x _ j Eo Ea El Hx H) | exact (list_depth o _ a l x _ j Eo Ea El Hx H')].
Lemma fuel_normalizer f : forall f' j, json_depth j < f -> json_depth j < f' -> with_normalizer f j = with_normalizer f' j.
Proof. induction f as [|f IH]; [lia|]. fuel_case IH ("normalizers" : String.string). Qed.
Lemma fuel_pre f : forall f' j, json_depth j < f -> json_depth j < f' -> with_pre_tokenizer f j = with_pre_tokenizer f' j.
Proof. induction f as [|f IH]; [lia|]. fuel_case IH ("pretokenizers" : String.string). Qed.
Lemma fuel_decoder f : forall f' j, json_depth j < f -> json_depth j < f' -> with_decoder f j = with_decoder f' j.
Proof. induction f as [|f IH]; [lia|]. fuel_case IH ("decoders" : String.string). Qed.
Lemma fuel_post f : forall f' j, json_depth j < f -> json_depth j < f' -> with_post_processor f j = with_post_processor f' j.
Proof. induction f as [|f IH]; [lia|]. fuel_case IH ("processors" : String.string). Qed.

(** *** Components with a type *)
Ltac typed Hty Hty' := 
  cbn [with_normalizer with_pre_tokenizer with_decoder with_post_processor get_object bind];
  rewrite (proj2 (field_has _ _ _) Hty), (proj2 (field_has _ _ _) Hty'); cbn [bind];
  match goal with |- context [get_string (jname ?n)] => change (get_string (jname n)) with (Ok (str n)) end; cbn [bind];
  repeat match goal with |- context [leqb (str ?a) (str ?b)] => let r := eval vm_compute in (leqb (str a) (str b)) in change (leqb (str a) (str b)) with r; cbv iota end.
Lemma depth_elements o key l n : has o key (JArr l) -> json_depth (JObj o) < S n -> forall x, In x l -> json_depth x < n.
Proof. intros H Hn x Hx. apply depth_has in H. apply depth_arr in Hx. lia. Qed.
Lemma forall2_with {A} (P Q : A -> A -> Prop) l l' : Forall2 P l l' -> (forall x y, In x l -> In y l' -> P x y -> Q x y) -> Forall2 Q l l'.
Proof. induction 1 as [|x y l l' Hx H IH]; intros HQ; constructor; [apply HQ; [left; reflexivity | left; reflexivity | exact Hx] | apply IH; intros; apply HQ; [right; assumption | right; assumption | assumption]]. Qed.
Ltac filled_case IH FU := intros f' j j' H H' HF; destruct f' as [|f']; [lia|];
  inversion HF as [jj|o o' keys Hi HS|o o' name keys Hty Hty' Hi HS|o o' key l l' Hty Hty' Hi Hk Hk' HL]; subst;
  [ apply FU; assumption | in_cases Hi
  | in_cases Hi; injection Hi as <- <-; agrees; typed Hty Hty'; keyed
  | in_cases Hi; injection Hi as <-; typed Hty Hty'; rewrite (proj2 (field_has _ _ _) Hk), (proj2 (field_has _ _ _) Hk'); cbn [bind get_array];
    erewrite with_list_ext; [reflexivity|]; eapply forall2_with; [exact HL|]; cbn beta; intros x y Hx Hy Hxy; apply IH; [exact (depth_elements _ _ _ _ Hk H x Hx) | exact (depth_elements _ _ _ _ Hk' H' y Hy) | exact Hxy] ].
Lemma filled_normalizer f : forall f' j j', json_depth j < f -> json_depth j' < f' -> filled "normalizer" j j' -> with_normalizer f j = with_normalizer f' j'.
Proof. induction f as [|f IH]; [lia|]. filled_case IH fuel_normalizer. Qed.
Lemma filled_pre f : forall f' j j', json_depth j < f -> json_depth j' < f' -> filled "pre_tokenizer" j j' -> with_pre_tokenizer f j = with_pre_tokenizer f' j'.
Proof. induction f as [|f IH]; [lia|]. filled_case IH fuel_pre. Qed.
Lemma filled_decoder f : forall f' j j', json_depth j < f -> json_depth j' < f' -> filled "decoder" j j' -> with_decoder f j = with_decoder f' j'.
Proof. induction f as [|f IH]; [lia|]. filled_case IH fuel_decoder. Qed.
Lemma filled_post f : forall f' j j', json_depth j < f -> json_depth j' < f' -> filled "post_processor" j j' -> with_post_processor f j = with_post_processor f' j'.
Proof. induction f as [|f IH]; [lia|]. filled_case IH fuel_post. Qed.
Lemma filled_model j j' : filled "model" j j' -> with_model j = with_model j'.
Proof.
  intros HF. inversion HF as [jj|o o' keys Hi HS|o o' name keys Hty Hty' Hi HS|o o' key l l' Hty Hty' Hi Hk Hk' HL]; subst; [reflexivity | in_cases Hi | | in_cases Hi].
  in_cases Hi; injection Hi as <- <-; agrees; unfold with_model; typed Hty Hty'; keyed.
Qed.

(** ** C113 *)
(** Two documents that differ only in nulls spelled out as the default values (and in keys the format does not know) are read alike: the same tokenizer, or both are rejected. *)
Theorem C113_null_is_default : forall o o', (forall top, In top top_keys -> exists j j', has o top j /\ has o' top j' /\ filled top j j') -> read_config (JObj o) = read_config (JObj o').
Proof.
  intros o o' H. unfold read_config. cbv zeta. cbn [get_object bind].
  assert (K : forall {A} top (g g' : json -> res (option A)), In top top_keys -> (forall j j', has o top j -> has o' top j' -> filled top j j' -> g j = g' j') -> component o top g = component o' top g').
  { intros A top g g' Hin Hg. destruct (H top Hin) as (j & j' & H1 & H2 & H3). unfold component. rewrite (proj2 (field_has _ _ _) H1), (proj2 (field_has _ _ _) H2). cbn [bind].
    pose proof (Hg j j' H1 H2 H3) as E. inversion H3; subst; [|cbn [or_default]; exact E ..]. destruct j'; [reflexivity | exact E ..]. }
  assert (D : forall p k j, has p k j -> json_depth j < S (json_depth (JObj p))) by (intros p k j Hh; apply depth_has in Hh; lia).
  rewrite (K _ "truncation" _ (fun j => l <- get_object j ;; t <- with_truncation l ;; Ok (Some t))); [|left; reflexivity|].
  2:{ intros j j' _ _ HF. inversion HF; subst; [reflexivity | | in_cases H2 | in_cases H2]. cbn [get_object bind]. erewrite filled_truncation by eassumption. reflexivity. }
  apply bind_ext; intros tr.
  rewrite (K _ "padding" _ (fun j => l <- get_object j ;; p <- with_padding l ;; Ok (Some p))); [|right; left; reflexivity|].
  2:{ intros j j' _ _ HF. inversion HF; subst; [reflexivity | | in_cases H2 | in_cases H2]. cbn [get_object bind]. erewrite filled_padding by eassumption. reflexivity. }
  apply bind_ext; intros pd.
  rewrite (K _ "added_tokens" _ (fun j => l <- get_array j ;; a <- with_added_vocabulary l ;; Ok (Some a))); [|do 2 right; left; reflexivity|].
  2:{ intros j j' _ _ HF. inversion HF; subst; [reflexivity | in_cases H0 | in_cases H2 | in_cases H2]. }
  apply bind_ext; intros av.
  rewrite (K _ "normalizer" _ (with_normalizer (S (json_depth (JObj o'))))); [|do 3 right; left; reflexivity | intros j j' Q1 Q2 HF; apply filled_normalizer; [exact (D _ _ _ Q1) | exact (D _ _ _ Q2) | exact HF]].
  apply bind_ext; intros no.
  rewrite (K _ "pre_tokenizer" _ (with_pre_tokenizer (S (json_depth (JObj o'))))); [|do 4 right; left; reflexivity | intros j j' Q1 Q2 HF; apply filled_pre; [exact (D _ _ _ Q1) | exact (D _ _ _ Q2) | exact HF]].
  apply bind_ext; intros pt.
  rewrite (K _ "model" _ with_model); [|do 5 right; left; reflexivity | intros j j' _ _ HF; apply filled_model; exact HF].
  apply bind_ext; intros md.
  rewrite (K _ "decoder" _ (with_decoder (S (json_depth (JObj o'))))); [|do 6 right; left; reflexivity | intros j j' Q1 Q2 HF; apply filled_decoder; [exact (D _ _ _ Q1) | exact (D _ _ _ Q2) | exact HF]].
  apply bind_ext; intros de.
  rewrite (K _ "post_processor" _ (with_post_processor (S (json_depth (JObj o'))))); [|do 7 right; left; reflexivity | intros j j' Q1 Q2 HF; apply filled_post; [exact (D _ _ _ Q1) | exact (D _ _ _ Q2) | exact HF]].
  reflexivity.
Qed.
Print Assumptions C113_null_is_default.
(** So are the tokenizers constructed from them. *)
Theorem C113_construct : forall load parse path cfg load' parse' path' cfg' s s' o o', source load path cfg (Some s) -> source load' path' cfg' (Some s') -> parse s = Some (JObj o) -> parse' s' = Some (JObj o') ->
  (forall top, In top top_keys -> exists j j', has o top j /\ has o' top j' /\ filled top j j') -> construct load parse path cfg = construct load' parse' path' cfg'.
Proof.
  intros load parse path cfg load' parse' path' cfg' s s' o o' Hs Hs' Hp Hp' H. rewrite (construct_eq _ _ _ _ _ Hs), (construct_eq _ _ _ _ _ Hs'), Hp, Hp', (C113_null_is_default o o' H). reflexivity.
Qed.
Print Assumptions C113_construct.
(** Normalizers that agree on every text encode alike. *)
Lemma norm_same E f g trie ns m e l : (forall x, normalize E f x = normalize E g x) -> normalize_splits E (Some f) trie ns m e l = normalize_splits E (Some g) trie ns m e l.
Proof.
  intros H. revert ns m e. induction l as [|s l IH]; intros ns m e; [reflexivity|]. cbn [normalize_splits]. destruct (sp_tokens s).
  - destruct (convert_from_string (sp_text s)) as [w| | |]; cbn [bind]; try reflexivity. rewrite H. destruct (normalize E g (new_nstring w)) as [nw| | |]; cbn [bind]; try reflexivity. destruct (transform_range _ _ _) as [ns'| | |]; cbn [bind]; try reflexivity.
    destruct (convert_to_string _) as [st| | |]; cbn [bind]; try reflexivity. destruct (av_find_matches _ _ _) as [[m' ms]| | |]; cbn [bind]; try reflexivity. destruct (norm_splits _ _ _); cbn [bind]; try reflexivity. rewrite IH. reflexivity.
  - rewrite IH. reflexivity.
Qed.
(** For BertNormalizer, strip_accents null (false) means: as lowercase says. The price: with lowercase, strip_accents = false is ignored. *)
Theorem C113_strip_accents : forall E fuel tr pd av pre m d p cl ch lo s add,
  snd (encode E fuel (mkTz tr pd av (Some (NBert cl ch false lo)) pre m d p) s add) = snd (encode E fuel (mkTz tr pd av (Some (NBert cl ch lo lo)) pre m d p) s add).
Proof.
  intros E fuel tr pd av pre m d p cl ch lo s add. destruct lo; [|reflexivity]. unfold encode.
  assert (Q : prepare E (mkTz tr pd av (Some (NBert cl ch false true)) pre m d p) s = prepare E (mkTz tr pd av (Some (NBert cl ch true true)) pre m d p) s).
  { unfold prepare. cbn [tz_av tz_norm tz_pre]. destruct (new_pretok (new_nstring s)) as [p0| | |]; cbn [bind]; try reflexivity. destruct av as [a|]; [|reflexivity].
    unfold extract_and_normalize. destruct (new_pretok (new_nstring s)) as [q| | |]; cbn [bind]; try reflexivity. destruct (convert_to_string _) as [st| | |]; cbn [bind]; try reflexivity.
    destruct (av_find_matches _ _ _) as [[x ms]| | |]; cbn [bind]; try reflexivity. destruct (raw_splits _ _) as [raw| | |]; cbn [bind]; try reflexivity. cbv zeta.
    rewrite (norm_same E (NBert cl ch false true) (NBert cl ch true true)); [reflexivity|]. intros y. reflexivity. }
  rewrite Q. clear Q. destruct (prepare E _ s) as [[a q]| | |]; [|reflexivity ..]. cbn [set_av tz_model]. destruct m as [m|]; [|reflexivity]. destruct (model_tokenize E m q) as [m' r]. reflexivity.
Qed.
Print Assumptions C113_strip_accents.
Theorem C113_strip_accents_refuted : forall E fuel tr pd av pre m d p cl ch st s add,
  snd (encode E fuel (mkTz tr pd av (Some (NBert cl ch st true)) pre m d p) s add) = snd (encode E fuel (mkTz tr pd av (Some (NBert cl ch true true)) pre m d p) s add).
Proof. intros. destruct st; [reflexivity | apply (C113_strip_accents E fuel tr pd av pre m d p cl ch true s add)]. Qed.
Print Assumptions C113_strip_accents_refuted.

(** A normalizer sequence with BertNormalizer as bert-base-uncased has it (strip_accents null), a BPE model with most keys null, a padding without direction. *)
Definition null_norm (st : json) : json := jobj "Sequence" [jkey "normalizers" (JArr [jobj "NFC" []; jobj "BertNormalizer" [jkey "clean_text" (JBool true); jkey "handle_chinese_chars" (JBool true); jkey "strip_accents" st; jkey "lowercase" (JBool true)]])].
Definition null_model (dr u pf sf fu bf ig : json) : json :=
  jobj "BPE" [jkey "dropout" dr; jkey "unk_token" u; jkey "continuing_subword_prefix" pf; jkey "end_of_word_suffix" sf; jkey "fuse_unk" fu; jkey "byte_fallback" bf; jkey "ignore_merges" ig;
              jkey "vocab" (JObj [(str "a", JInt 0)]); jkey "merges" (JArr [])].
Definition null_doc (norm model pad : json) : list (bytes * json) :=
  [jkey "truncation" JNull; jkey "padding" pad; jkey "added_tokens" (JArr []); jkey "normalizer" norm; jkey "pre_tokenizer" JNull; jkey "post_processor" JNull; jkey "decoder" JNull; jkey "model" model].
Definition null_pad (d s m : json) : json := JObj [jkey "direction" d; jkey "strategy" s; jkey "pad_id" (JInt 3); jkey "pad_type_id" (JInt 0); jkey "pad_token" (jname "[PAD]"); jkey "pad_to_multiple_of" m].
Definition with_nulls := null_doc (null_norm JNull) (null_model JNull JNull JNull JNull JNull JNull JNull) (null_pad JNull JNull JNull).
Definition without_nulls := null_doc (null_norm (JBool false)) (null_model (JInt 0) (JStr []) (JStr []) (JStr []) (JBool false) (JBool false) (JBool false)) (null_pad (JStr []) (JObj []) (JInt 0)).
Ltac same_or_null := eexists; eexists; split; [find_key|]; split; [find_key|]; first [left; reflexivity | right; split; reflexivity].
Example C113_case : (forall top, In top top_keys -> exists j j', has with_nulls top j /\ has without_nulls top j' /\ filled top j j') /\
  exists t, read_config (JObj with_nulls) = Ok t /\ read_config (JObj without_nulls) = Ok t /\ tz_norm t = Some (NSequence [NForm NFC; NBert true true false true]) /\
    tz_pad t = Some (mkPad PUnknown PSUnknown (-1) 3 0 (str "[PAD]") 0).
Proof.
  split; [|eexists; split; [vm_compute; reflexivity|]; split; [vm_compute; reflexivity|]; split; reflexivity].
  intros top H. unfold top_keys in H. in_cases H; subst top; (eexists; eexists; split; [find_key|]; split; [find_key|]); try apply fi_same.
  - eapply fi_plain; [right; left; reflexivity|]. unfold spelled_out. repeat (apply Forall_cons; [same_or_null|]). apply Forall_nil.
  - eapply (fi_sequence _ _ _ "normalizers"); [find_key | find_key | left; reflexivity | find_key | find_key|]. constructor; [apply fi_same|]. constructor; [|constructor].
    eapply (fi_keys _ _ _ "BertNormalizer"); [find_key | find_key | left; reflexivity|]. unfold spelled_out. repeat (apply Forall_cons; [same_or_null|]). apply Forall_nil.
  - eapply (fi_keys _ _ _ "BPE"); [find_key | find_key | do 7 right; left; reflexivity|]. unfold spelled_out. repeat (apply Forall_cons; [same_or_null|]). apply Forall_nil.
Qed.
