From Verif Require Import Base BaseFacts Unicode UnicodeProofs Common Normalizer PreTokenizer PreSpec.
From Verif Require Import WordPiece WpSpec WpProofs.
From Coq Require Import ZifyBool ZifyNat ZifyN.

(** ** Gaps *)
Lemma with_gaps_chained l : forall cur len, ordered cur len l -> chained cur len (map fst (with_gaps cur len l)).
Proof.
  induction l as [|[a z] l IH]; intros cur len H; cbn [with_gaps].
  - cbn in H. destruct (Nat.ltb_spec cur len); cbn; lia.
  - destruct H as (H1 & H2 & H3 & H4). cbn [fst snd]. rewrite map_app. cbn [map fst].
    destruct (Nat.eqb_spec cur a) as [->|]; cbn [app map fst chained].
    + split; [reflexivity|]. split; [exact H2 | apply IH; exact H4].
    + split; [reflexivity|]. split; [lia|]. split; [reflexivity|]. split; [exact H2 | apply IH; exact H4].
Qed.
Lemma with_gaps_matches l : forall cur len, map fst (filter snd (with_gaps cur len l)) = l.
Proof.
  induction l as [|[a z] l IH]; intros cur len; cbn [with_gaps].
  - destruct (cur <? len); reflexivity.
  - rewrite filter_app, map_app. cbn [filter snd map fst]. rewrite IH. destruct (_ =? _); reflexivity.
Qed.
Lemma with_gaps_nonempty l : forall cur len, ordered cur len l -> Forall (fun m => snd m = false -> fst (fst m) < snd (fst m)) (with_gaps cur len l).
Proof.
  induction l as [|[a z] l IH]; intros cur len H; cbn [with_gaps].
  - destruct (Nat.ltb_spec cur len); constructor; [cbn; lia | constructor].
  - destruct H as (H1 & H2 & H3 & H4). apply Forall_app. split.
    + cbn [fst]. destruct (Nat.eqb_spec cur a); constructor; [cbn; lia | constructor].
    + constructor; [cbn; discriminate | apply IH; exact H4].
Qed.

(** ** Cutting UTF-16 text *)
Lemma utf16_cps_app u1 u2 : match rev u1, u2 with h :: _, t :: _ => is_lead h && is_trail t = false | _, _ => True end ->
  utf16_cps (u1 ++ u2) = utf16_cps u1 ++ utf16_cps u2.
Proof.
  remember (length u1) as n eqn:Hn. assert (Hl : length u1 <= n) by lia. clear Hn. revert u1 Hl. induction n as [|n IH]; intros u1 Hl H.
  - destruct u1; [reflexivity | cbn in Hl; lia].
  - destruct u1 as [|x u1]; [reflexivity|]. cbn [length] in Hl.
    assert (Htail : forall u, u <> [] -> match rev (x :: u), u2 with h :: _, t :: _ => is_lead h && is_trail t = false | _, _ => True end ->
                              match rev u, u2 with h :: _, t :: _ => is_lead h && is_trail t = false | _, _ => True end).
    { intros u Hu. cbn [rev]. destruct (rev u) as [|h r] eqn:E; [|cbn; auto]. apply (f_equal (@rev N)) in E. rewrite rev_involutive in E. contradiction. }
    cbn [app utf16_cps]. destruct (is_lead x) eqn:Ex.
    + destruct u1 as [|y u1].
      * cbn [app rev] in *. destruct u2 as [|t u2]; [reflexivity|]. cbn [rev app] in H. rewrite Ex in H. cbn [andb] in H. rewrite H. reflexivity.
      * cbn [app]. cbn [length] in Hl. destruct (is_trail y) eqn:Ey.
        -- cbn [app]. f_equal. apply IH; [lia|]. destruct u1 as [|z u1]; [exact I|].
           apply (fun P => Htail (y :: z :: u1) ltac:(discriminate) P) in H. cbn [rev] in H |- *. destruct (rev u1) as [|h r] eqn:E; cbn [app] in *; exact H.
        -- rewrite <- app_comm_cons. f_equal. rewrite app_comm_cons. apply IH; [cbn; lia|]. apply Htail; [discriminate | exact H].
    + rewrite <- app_comm_cons. f_equal. apply IH; [lia|]. destruct u1 as [|y u1]; [exact I|]. apply Htail; [discriminate | exact H].
Qed.
Lemma to_utf8_app u1 u2 : match rev u1, u2 with h :: _, t :: _ => is_lead h && is_trail t = false | _, _ => True end ->
  to_utf8 (u1 ++ u2) = to_utf8 u1 ++ to_utf8 u2.
Proof. intros H. unfold to_utf8. rewrite utf16_cps_app by exact H. apply flat_map_app. Qed.

Lemma last_slice u a y h r : rev (slice u a y) = h :: r -> a <= y <= length u -> exists q, y = S q /\ nth_error u q = Some h.
Proof.
  intros H Hl. unfold slice in H. assert (Hlen : length (firstn (y - a) (skipn a u)) = y - a) by (rewrite firstn_length, skipn_length; lia).
  assert (Hne : y - a <> 0) by (destruct (y - a) eqn:E0; [discriminate H | discriminate]).
  exists (y - 1). split; [lia|]. apply (f_equal (@rev N)) in H. rewrite rev_involutive in H. cbn in H.
  assert (Hnr : length (rev r) = y - a - 1) by (apply (f_equal (@length N)) in H; rewrite app_length, Hlen in H; cbn in H; lia).
  assert (Hx : nth_error (firstn (y - a) (skipn a u)) (y - a - 1) = Some h) by (rewrite H, nth_error_app2, Hnr, Nat.sub_diag by lia; reflexivity).
  rewrite nth_error_firstn in Hx. replace (y - a - 1 <? y - a) with true in Hx by lia. rewrite nth_error_skipn in Hx. replace (a + (y - a - 1)) with (y - 1) in Hx by lia. exact Hx.
Qed.

Lemma slice_cut u a y z : a <= y -> y <= z -> z <= length u -> char_boundary u y -> to_utf8 (slice u a z) = to_utf8 (slice u a y) ++ to_utf8 (slice u y z).
Proof.
  intros H1 H2 H3 Hb. assert (E : slice u a z = slice u a y ++ slice u y z).
  { unfold slice. replace y with (a + (y - a)) at 3 by lia. rewrite <- skipn_skipn'. rewrite <- (firstn_skipn (y - a) (firstn (z - a) (skipn a u))) at 1.
    rewrite firstn_firstn, Nat.min_l by lia. f_equal. rewrite skipn_firstn_comm. f_equal; try lia; try reflexivity. }
  rewrite E. apply to_utf8_app. destruct (rev (slice u a y)) as [|h r] eqn:E1; [exact I|]. destruct (slice u y z) as [|t r2] eqn:E2; [exact I|].
  destruct (last_slice u a y h r E1) as (q & Hq & Hh); [lia|].
  assert (Ht : nth_error u y = Some t).
  { unfold slice in E2. assert (nth_error (firstn (z - y) (skipn y u)) 0 = Some t) as Hx by (rewrite E2; reflexivity).
    destruct (z - y) eqn:Ezy; [discriminate|]. rewrite nth_error_firstn in Hx. cbn [Nat.ltb Nat.leb] in Hx. rewrite nth_error_skipn, Nat.add_0_r in Hx. exact Hx. }
  destruct (is_lead h) eqn:El; [|reflexivity]. destruct (is_trail t) eqn:Et; [|reflexivity]. exfalso. apply (Hb q h t Hq Hh Ht). auto.
Qed.

Lemma chained_le l : forall a z, chained a z l -> a <= z.
Proof. induction l as [|[x y] l IH]; intros a z H; cbn in H; [lia|]. destruct H as (_ & H1 & H2). apply IH in H2. lia. Qed.

Lemma chained_text u l : forall a, chained a (length u) l -> a <= length u -> Forall (fun s => char_boundary u (snd s)) l ->
  concat (map (fun s => to_utf8 (slice u (fst s) (snd s))) l) = to_utf8 (slice u a (length u)).
Proof.
  induction l as [|[x y] l IH]; intros a H Ha Hb; cbn [chained map concat] in *.
  - subst a. unfold slice. rewrite Nat.sub_diag. reflexivity.
  - destruct H as (-> & H1 & H2). inversion Hb as [|? ? Hb1 Hb2]; subst. cbn [fst snd] in *. pose proof (chained_le _ _ _ H2) as Hle.
    rewrite (IH y H2 Hle Hb2). symmetry. apply slice_cut; auto.
Qed.

(** ** Code point level *)
Definition cps (cs : wstr) : list (N * nat) := map (fun c => (c, cp_width c)) cs.

Lemma units_cons c cs : units (c :: cs) = cp_width c + units cs.
Proof. unfold units. cbn [flat_map]. rewrite app_length. f_equal. unfold utf16_enc, cp_width. destruct (c <? 65536)%N; reflexivity. Qed.
Lemma units_app a b : units (a ++ b) = units a + units b.
Proof. unfold units. rewrite flat_map_app, app_length. reflexivity. Qed.
Lemma units_1 c : units [c] = cp_width c.
Proof. rewrite units_cons. unfold units. cbn. lia. Qed.
Lemma cp_width_pos c : 0 < cp_width c.
Proof. unfold cp_width. destruct (_ <? _)%N; lia. Qed.
Lemma units_0 cs : units cs = 0 <-> cs = [].
Proof. split; [|intros ->; reflexivity]. destruct cs as [|c cs]; [reflexivity|]. rewrite units_cons. pose proof (cp_width_pos c). lia. Qed.

Definition flush (pre cur : wstr) : list (wstr * wstr) := match cur with [] => [] | _ => [(pre, cur)] end.
Fixpoint words (f : N -> bool) (pre cur cs : wstr) : list (wstr * wstr) :=
  match cs with
  | [] => flush pre cur
  | c :: r => if f c then flush pre cur ++ words f (pre ++ cur ++ [c]) [] r else words f pre (cur ++ [c]) r
  end.
Fixpoint isolate (f : N -> bool) (pre cur cs : wstr) : list (wstr * wstr) :=
  match cs with
  | [] => flush pre cur
  | c :: r => if f c then flush pre cur ++ (pre ++ cur, [c]) :: isolate f (pre ++ cur ++ [c]) [] r else isolate f pre (cur ++ [c]) r
  end.

Lemma flush_span pre cur : (if units pre =? units (pre ++ cur) then [] else [(units pre, units (pre ++ cur))]) = map piece_span (flush pre cur).
Proof.
  rewrite units_app. destruct cur as [|c cur].
  - change (units []) with 0. rewrite Nat.add_0_r, Nat.eqb_refl. reflexivity.
  - assert (0 < units (c :: cur)) by (rewrite units_cons; pose proof (cp_width_pos c); lia). destruct (Nat.eqb_spec (units pre) (units pre + units (c :: cur))); [lia | reflexivity].
Qed.

Definition unmatched (l : list ((nat * nat) * bool)) : list (nat * nat) := map fst (filter (fun m => negb (snd m)) l).
Lemma unmatched_app a b : unmatched (a ++ b) = unmatched a ++ unmatched b.
Proof. unfold unmatched. rewrite filter_app, map_app. reflexivity. Qed.

Lemma words_spans f cs :
  (forall pre cur, unmatched (with_gaps (units pre) (units (pre ++ cur ++ cs)) (run_matches f (units (pre ++ cur)) None (cps cs)))
                   = map piece_span (words f pre cur cs)) /\
  (forall pre cur sp, sp <> [] -> unmatched (with_gaps (units pre) (units (pre ++ cur ++ sp ++ cs)) (run_matches f (units (pre ++ cur ++ sp)) (Some (units (pre ++ cur))) (cps cs)))
                   = map piece_span (flush pre cur ++ words f (pre ++ cur ++ sp) [] cs)).
Proof.
  induction cs as [|c cs [IH1 IH2]].
  - split.
    + intros pre cur. cbn [cps map run_matches with_gaps words]. rewrite app_nil_r. rewrite <- flush_span, units_app.
      destruct (Nat.ltb_spec (units pre) (units pre + units cur)), (Nat.eqb_spec (units pre) (units pre + units cur)); try lia; reflexivity.
    + intros pre cur sp _. cbn [cps map run_matches with_gaps words fst snd]. rewrite app_nil_r, Nat.ltb_irrefl. rewrite map_app, <- flush_span.
      destruct (units pre =? units (pre ++ cur)); reflexivity.
  - split.
    + intros pre cur. cbn [cps map run_matches words]. destruct (f c).
      * specialize (IH2 pre cur [c] ltac:(discriminate)). replace (units (pre ++ cur) + cp_width c) with (units (pre ++ cur ++ [c])) by (rewrite !units_app, units_1; lia).
        rewrite <- IH2. reflexivity.
      * specialize (IH1 pre (cur ++ [c])). replace (units (pre ++ cur) + cp_width c) with (units (pre ++ cur ++ [c])) by (rewrite !units_app, units_1; lia).
        rewrite <- IH1. rewrite <- !app_assoc. reflexivity.
    + intros pre cur sp Hsp. cbn [cps map run_matches]. destruct (f c) eqn:Ec.
      * specialize (IH2 pre cur (sp ++ [c]) ltac:(destruct sp; discriminate)).
        replace (units (pre ++ cur ++ sp) + cp_width c) with (units (pre ++ cur ++ sp ++ [c])) by (rewrite !units_app, units_1; lia).
        rewrite <- !app_assoc in IH2. cbn [app] in IH2. unfold cps in IH2. rewrite IH2. f_equal. f_equal.
        cbn [words]. rewrite Ec. cbn [app flush]. rewrite <- !app_assoc. reflexivity.
      * cbn [with_gaps fst snd]. rewrite unmatched_app. specialize (IH1 (pre ++ cur ++ sp) [c]).
        replace (units (pre ++ cur ++ sp) + cp_width c) with (units ((pre ++ cur ++ sp) ++ [c])) by (rewrite !units_app, units_1; lia).
        rewrite map_app, <- flush_span. f_equal.
        { destruct (units pre =? units (pre ++ cur)); reflexivity. }
        cbn [unmatched filter map snd negb]. fold (unmatched (with_gaps (units (pre ++ cur ++ sp)) (units (pre ++ cur ++ sp ++ c :: cs)) (run_matches f (units ((pre ++ cur ++ sp) ++ [c])) None (cps cs)))).
        unfold unmatched, cps in IH1. replace ((pre ++ cur ++ sp) ++ [c]) with (pre ++ cur ++ sp ++ [c]) in * by (rewrite <- !app_assoc; reflexivity).
        rewrite <- ?app_assoc in IH1. rewrite <- ?app_assoc. cbn [app words] in *. rewrite Ec. exact IH1.
Qed.

Lemma isolate_spans f cs : forall pre cur, map fst (with_gaps (units pre) (units (pre ++ cur ++ cs)) (class_matches f (units (pre ++ cur)) (cps cs)))
                   = map piece_span (isolate f pre cur cs).
Proof.
  induction cs as [|c cs IH]; intros pre cur.
  - cbn [cps map class_matches with_gaps isolate]. rewrite app_nil_r. rewrite <- flush_span, units_app.
    destruct (Nat.ltb_spec (units pre) (units pre + units cur)), (Nat.eqb_spec (units pre) (units pre + units cur)); try lia; reflexivity.
  - cbn [cps map class_matches isolate]. replace (units (pre ++ cur) + cp_width c) with (units (pre ++ cur ++ [c])) by (rewrite !units_app, units_1; lia). destruct (f c).
    + cbn [with_gaps fst snd]. rewrite !map_app, <- flush_span. f_equal; [destruct (units pre =? units (pre ++ cur)); reflexivity|]. cbn [map fst]. f_equal.
      * unfold piece_span. cbn [fst snd]. f_equal. rewrite !units_app. lia.
      * specialize (IH (pre ++ cur ++ [c]) []). rewrite app_nil_r in IH. rewrite <- IH. rewrite <- !app_assoc. reflexivity.
    + specialize (IH pre (cur ++ [c])). rewrite <- IH. rewrite <- !app_assoc. reflexivity.
Qed.

Lemma piece_slice pre ws post : forallb valid_cp (pre ++ ws ++ post) = true ->
  to_utf8 (usub_between (flat_map utf16_enc (pre ++ ws ++ post)) (units pre) (units pre + units ws)) = utf8_encs ws.
Proof.
  intros H. rewrite !forallb_app in H. apply andb_prop in H as [_ H]. apply andb_prop in H as [H _].
  unfold usub_between, usub. replace (units pre + units ws - units pre) with (units ws) by lia. rewrite flat_map_app. unfold units at 2.
  rewrite skipn_app, skipn_all, Nat.sub_diag. cbn [skipn app]. rewrite flat_map_app. unfold units. rewrite firstn_app, firstn_all, Nat.sub_diag. cbn [firstn]. rewrite app_nil_r.
  apply to_utf8_encs. exact H.
Qed.

(** ** The pieces *)
Definition inside (cs : wstr) (p : wstr * wstr) : Prop := snd p <> [] /\ exists post, cs = fst p ++ snd p ++ post.

Lemma flush_inside pre cur post : Forall (inside (pre ++ cur ++ post)) (flush pre cur).
Proof. destruct cur as [|c cur]; constructor; [|constructor]. split; [discriminate|]. exists post. reflexivity. Qed.
Lemma words_inside f cs : forall pre cur, Forall (inside (pre ++ cur ++ cs)) (words f pre cur cs).
Proof.
  induction cs as [|c cs IH]; intros pre cur; cbn [words]; [apply flush_inside|]. destruct (f c).
  - apply Forall_app. split; [apply flush_inside|]. specialize (IH (pre ++ cur ++ [c]) []). rewrite <- !app_assoc in IH. exact IH.
  - specialize (IH pre (cur ++ [c])). rewrite <- !app_assoc in IH. exact IH.
Qed.
Lemma isolate_inside f cs : forall pre cur, Forall (inside (pre ++ cur ++ cs)) (isolate f pre cur cs).
Proof.
  induction cs as [|c cs IH]; intros pre cur; cbn [isolate]; [apply flush_inside|]. destruct (f c).
  - apply Forall_app. split; [apply flush_inside|]. constructor; [split; [discriminate|]; exists cs; cbn; rewrite <- app_assoc; reflexivity|].
    specialize (IH (pre ++ cur ++ [c]) []). rewrite <- !app_assoc in IH. exact IH.
  - specialize (IH pre (cur ++ [c])). rewrite <- !app_assoc in IH. exact IH.
Qed.
Lemma flush_concat pre cur : concat (map snd (flush pre cur)) = cur.
Proof. destruct cur; cbn; rewrite ?app_nil_r; reflexivity. Qed.
Lemma words_concat f cs : forall pre cur, concat (map snd (words f pre cur cs)) = cur ++ filter (fun c => negb (f c)) cs.
Proof.
  induction cs as [|c cs IH]; intros pre cur; cbn [words filter]; [rewrite flush_concat, app_nil_r; reflexivity|]. destruct (f c); cbn [negb].
  - rewrite map_app, concat_app, flush_concat, IH. reflexivity.
  - rewrite IH, <- app_assoc. reflexivity.
Qed.
Lemma isolate_concat f cs : forall pre cur, concat (map snd (isolate f pre cur cs)) = cur ++ cs.
Proof.
  induction cs as [|c cs IH]; intros pre cur; cbn [isolate]; [rewrite flush_concat, app_nil_r; reflexivity|]. destruct (f c).
  - rewrite map_app, concat_app, flush_concat. cbn [map concat snd]. rewrite IH. reflexivity.
  - rewrite IH, <- app_assoc. reflexivity.
Qed.
Lemma words_none f cs : forall pre cur, Forall (fun c => f c = false) cur -> Forall (fun p => Forall (fun c => f c = false) (snd p)) (words f pre cur cs).
Proof.
  assert (HF : forall pre cur, Forall (fun c => f c = false) cur -> Forall (fun p => Forall (fun c => f c = false) (snd p)) (flush pre cur)).
  { intros pre cur H. destruct cur; constructor; [exact H | constructor]. }
  induction cs as [|c cs IH]; intros pre cur H; cbn [words]; [apply HF, H|]. destruct (f c) eqn:E.
  - apply Forall_app. split; [apply HF, H | apply IH; constructor].
  - apply IH. apply Forall_app. split; [exact H | constructor; [exact E | constructor]].
Qed.
Lemma isolate_kind f cs : forall pre cur, Forall (fun c => f c = false) cur ->
  Forall (fun p => (exists c, snd p = [c] /\ f c = true) \/ Forall (fun c => f c = false) (snd p)) (isolate f pre cur cs).
Proof.
  assert (HF : forall pre cur, Forall (fun c => f c = false) cur -> Forall (fun p => (exists c, snd p = [c] /\ f c = true) \/ Forall (fun c => f c = false) (snd p)) (flush pre cur)).
  { intros pre cur H. destruct cur; constructor; [right; exact H | constructor]. }
  induction cs as [|c cs IH]; intros pre cur H; cbn [isolate]; [apply HF, H|]. destruct (f c) eqn:E.
  - apply Forall_app. split; [apply HF, H|]. constructor; [left; exists c; auto | apply IH; constructor].
  - apply IH. apply Forall_app. split; [exact H | constructor; [exact E | constructor]].
Qed.

Lemma decoded_units t : from_utf8 t = flat_map utf16_enc (decoded t) /\ forallb valid_cp (decoded t) = true.
Proof. exact (from_utf8_valid t). Qed.
Lemma decoded_encs cs : forallb valid_cp cs = true -> decoded (utf8_encs cs) = cs.
Proof. intros H. unfold decoded. rewrite utf8_dec_encs by exact H. rewrite map_map. apply map_id. Qed.

Lemma adjacent_app {A} (R : A -> A -> Prop) a b : adjacent R a -> adjacent R b -> (forall p q, In p a -> In q b -> R p q) -> adjacent R (a ++ b).
Proof.
  induction a as [|p a IH]; intros Ha Hb H; [exact Hb|]. destruct Ha as [H1 H2]. cbn [app adjacent]. split.
  - destruct a as [|q a]; cbn [app]; [|exact H1]. destruct b as [|q b]; [exact I|]. apply H; left; reflexivity.
  - apply IH; auto. intros x y Hx Hy. apply H; [right|]; assumption.
Qed.
Lemma adjacent_impl {A} (R S : A -> A -> Prop) l : (forall p q, R p q -> S p q) -> adjacent R l -> adjacent S l.
Proof. intros HI. induction l as [|p l IH]; intros H; [exact I|]. destruct H as [H1 H2]. split; [|auto]. destruct l; auto. Qed.
Lemma adjacent_map {A B} (f : A -> B) (R : B -> B -> Prop) l : adjacent R (map f l) <-> adjacent (fun x y => R (f x) (f y)) l.
Proof. induction l as [|p l IH]; [reflexivity|]. cbn [map adjacent]. rewrite IH. destruct l; reflexivity. Qed.

Lemma flush_start pre cur : Forall (fun p => fst p = pre /\ snd p = cur) (flush pre cur).
Proof. destruct cur; constructor; [split; reflexivity | constructor]. Qed.
Lemma words_start f cs : forall pre cur, Forall (fun p => units pre <= units (fst p)) (words f pre cur cs).
Proof.
  induction cs as [|c cs IH]; intros pre cur; cbn [words].
  - eapply Forall_impl; [|apply flush_start]. intros p [-> _]. lia.
  - destruct (f c); [|apply IH]. apply Forall_app. split; [eapply Forall_impl; [|apply flush_start]; intros p [-> _]; lia|].
    eapply Forall_impl; [|apply IH]. intros p Hp. rewrite units_app in Hp. lia.
Qed.
Lemma words_adjacent f cs : forall pre cur, adjacent (fun p q => snd (piece_span p) < fst (piece_span q)) (words f pre cur cs).
Proof.
  assert (HF : forall pre cur, adjacent (fun p q => snd (piece_span p) < fst (piece_span q)) (flush pre cur)) by (intros pre [|c cur]; cbn; auto).
  induction cs as [|c cs IH]; intros pre cur; cbn [words]; [apply HF|]. destruct (f c); [|apply IH].
  apply adjacent_app; [apply HF | apply IH|]. intros p q Hp Hq. pose proof (proj1 (Forall_forall _ _) (flush_start pre cur) p Hp) as [H1 H2].
  pose proof (proj1 (Forall_forall _ _) (words_start f cs (pre ++ cur ++ [c]) []) q Hq) as H3. cbn beta in H3. unfold piece_span. cbn [fst snd]. rewrite H1, H2.
  rewrite !units_app, units_1 in H3. pose proof (cp_width_pos c). lia.
Qed.
Lemma words_disjoint f cs : forall pre cur l1 p l2 q l3, words f pre cur cs = l1 ++ p :: l2 ++ q :: l3 -> snd (piece_span p) < fst (piece_span q).
Proof.
  intros pre cur l1 p l2 q l3 H. pose proof (words_adjacent f cs pre cur) as HA. rewrite H in HA. clear H.
  induction l1 as [|x l1 IH]; [|apply IH; apply HA]. cbn [app] in HA. revert p HA. induction l2 as [|y l2 IH2]; intros p HA; cbn [app] in HA; [apply HA|].
  destruct HA as [H1 H2]. specialize (IH2 y H2). unfold piece_span in *. cbn [fst snd] in *. lia.
Qed.
Lemma adjacent_snoc {A} (R : A -> A -> Prop) a x b : adjacent R (a ++ [x]) -> adjacent R b -> (forall q, In q b -> R x q) -> adjacent R (a ++ x :: b).
Proof.
  induction a as [|p a IH]; intros Ha Hb H.
  - cbn [app adjacent]. split; [|exact Hb]. destruct b; [exact I|]. apply H; left; reflexivity.
  - destruct Ha as [H1 H2]. cbn [app adjacent]. split; [|apply IH; auto]. destruct a; exact H1.
Qed.
Lemma isolate_adjacent f cs : forall pre cur, adjacent (fun p q : wstr * wstr => (exists c, snd p = [c] /\ f c = true) \/ (exists c, snd q = [c] /\ f c = true)) (isolate f pre cur cs).
Proof.
  assert (HF : forall pre cur, adjacent (fun p q : wstr * wstr => (exists c, snd p = [c] /\ f c = true) \/ (exists c, snd q = [c] /\ f c = true)) (flush pre cur)) by (intros pre [|c cur]; cbn; auto).
  induction cs as [|c cs IH]; intros pre cur; cbn [isolate]; [apply HF|]. destruct (f c) eqn:E; [|apply IH].
  assert (HP : exists c0, snd (pre ++ cur, [c]) = [c0] /\ f c0 = true) by (exists c; auto).
  apply adjacent_snoc; [|apply IH|].
  - destruct cur as [|x cur]; cbn [flush app adjacent]; auto.
  - intros q _. left. exact HP.
Qed.

Lemma isolate_start f cs : forall pre cur, Forall (fun p => units pre <= units (fst p)) (isolate f pre cur cs).
Proof.
  induction cs as [|c cs IH]; intros pre cur; cbn [isolate].
  - eapply Forall_impl; [|apply flush_start]. intros p [-> _]. lia.
  - destruct (f c); [|apply IH]. apply Forall_app. split; [eapply Forall_impl; [|apply flush_start]; intros p [-> _]; lia|].
    constructor; [cbn [fst]; rewrite units_app; lia|]. eapply Forall_impl; [|apply IH]. intros p Hp. rewrite units_app in Hp. lia.
Qed.
Lemma isolate_ordered f cs : forall pre cur, adjacent (fun p q => snd (piece_span p) <= fst (piece_span q)) (isolate f pre cur cs).
Proof.
  assert (HF : forall pre cur, adjacent (fun p q => snd (piece_span p) <= fst (piece_span q)) (flush pre cur)) by (intros pre [|c cur]; cbn; auto).
  induction cs as [|c cs IH]; intros pre cur; cbn [isolate]; [apply HF|]. destruct (f c) eqn:E; [|apply IH].
  apply adjacent_snoc; [|apply IH|].
  - destruct cur as [|x cur]; cbn [flush app adjacent]; [auto|]. split; [|auto]. unfold piece_span. cbn [fst snd]. rewrite units_app. lia.
  - intros q Hq. pose proof (proj1 (Forall_forall _ _) (isolate_start f cs (pre ++ cur ++ [c]) []) q Hq) as H3. cbn beta in H3. unfold piece_span. cbn [fst snd].
    rewrite !units_app in *. lia.
Qed.
Lemma adjacent_and {A} (R S : A -> A -> Prop) l : adjacent R l -> adjacent S l -> adjacent (fun p q => R p q /\ S p q) l.
Proof. induction l as [|p l IH]; intros H1 H2; [exact I|]. destruct H1 as [H1 H1'], H2 as [H2 H2']. split; [destruct l; auto | auto]. Qed.

Definition bert_pieces (sp pu : N -> bool) (cs : wstr) : list (wstr * wstr) :=
  flat_map (fun p : wstr * wstr => map (fun q : wstr * wstr => ((fst p ++ fst q) : wstr, snd q)) (isolate pu [] [] (snd p))) (words sp [] [] cs).

Lemma bert_pieces_words sp pu cs : bert_words sp pu cs (bert_pieces sp pu cs).
Proof.
  unfold bert_pieces. pose proof (words_inside sp cs [] []) as HW. cbn [app] in HW.
  pose proof (words_none sp cs [] [] ltac:(constructor)) as HN. pose proof (words_concat sp cs [] []) as HC. cbn [app] in HC.
  assert (HD := words_disjoint sp cs [] []). split; [|split].
  - apply Forall_forall. intros p Hp. apply in_flat_map in Hp as (w & Hw & Hp). apply in_map_iff in Hp as (q & <- & Hq). cbn [fst snd].
    rewrite Forall_forall in HW, HN. destruct (HW w Hw) as (_ & post & Hpost). specialize (HN w Hw).
    pose proof (proj1 (Forall_forall _ _) (isolate_inside pu (snd w) [] []) q Hq) as (Hne & post2 & Hpost2). cbn [app] in Hpost2.
    pose proof (proj1 (Forall_forall _ _) (isolate_kind pu (snd w) [] [] ltac:(constructor)) q Hq) as Hk. cbn beta in Hk.
    split; [exact Hne|]. split; [|split; [|exact Hk]].
    + exists (post2 ++ post). rewrite Hpost, Hpost2 at 1. rewrite <- !app_assoc. reflexivity.
    + pose proof (eq_ind (snd w) (fun l => Forall (fun c => sp c = false) l) HN _ Hpost2) as HN2. apply Forall_app in HN2 as [_ HN2]. apply Forall_app in HN2 as [HN2 _]. exact HN2.
  - rewrite <- HC. clear. induction (words sp [] [] cs) as [|w l IH]; [reflexivity|]. cbn [flat_map map concat]. rewrite map_app, concat_app, IH. f_equal.
    rewrite map_map. cbn [snd]. apply (isolate_concat pu (snd w) [] []).
  - revert HD HW. generalize (words sp [] [] cs) as l. clear. induction l as [|w l IH]; intros HD HW; [exact I|]. cbn [flat_map].
    inversion HW as [|? ? Hw HW']; subst. apply adjacent_app.
    + apply adjacent_map. cbn [fst snd]. apply adjacent_and.
      * eapply adjacent_impl; [|apply (isolate_ordered pu (snd w) [] [])]. intros p q. unfold piece_span. cbn [fst snd]. rewrite !units_app. lia.
      * eapply adjacent_impl; [|apply isolate_adjacent]. cbn. auto.
    + apply IH; [|exact HW']. intros l1 p l2 q l3 H. apply (HD (w :: l1) p l2 q l3). rewrite H. reflexivity.
    + intros p q Hp Hq. cut (snd (piece_span p) < fst (piece_span q)); [intros HL; split; [lia | left; exact HL]|]. apply in_map_iff in Hp as (p2 & <- & Hp2). apply in_flat_map in Hq as (w' & Hw' & Hq). apply in_map_iff in Hq as (q2 & <- & Hq2).
      apply in_split in Hw' as (l1 & l2 & ->). specialize (HD [] w l1 w' l2 eq_refl). unfold piece_span in *. cbn [fst snd] in *.
      pose proof (proj1 (Forall_forall _ _) (isolate_inside pu (snd w) [] []) p2 Hp2) as (_ & post2 & Hpost2). cbn [app] in Hpost2.
      apply (f_equal units) in Hpost2. rewrite !units_app in *. lia.
Qed.

Lemma split_all_concat fn b l out : Forall2 (fun s rs => (if is_nil (sp_tokens s) then split_normalized s fn b else Ok [s]) = Ok rs) l out -> split_all fn b l = Ok (concat out).
Proof. induction 1 as [|s rs l out H _ IH]; [reflexivity|]. cbn [split_all concat]. rewrite H. cbn [bind]. rewrite IH. reflexivity. Qed.

Lemma filter_removed_isolated (l : list ((nat * nat) * bool)) : filter (fun m => negb (snd m)) (map (fun m => (fst m, false)) l) = map (fun m => (fst m, false)) l.
Proof. induction l as [|m l IH]; [reflexivity|]. cbn. rewrite IH. reflexivity. Qed.

Lemma space_split E s : split_normalized s (find_matches E pat_space) REMOVED = Ok (map (piece_split (fst (sp_off s))) (words (e_u_space E) [] [] (decoded (sp_text s)))).
Proof.
  destruct (decoded_units (sp_text s)) as [Hu Hv]. set (cs := decoded (sp_text s)) in *. unfold split_normalized. rewrite Hu.
  unfold find_matches, regex_matches. cbn [leqb pat_space]. change (leqb pat_space pat_space) with true. cbn [bind]. rewrite utf16_cps_encs by exact Hv. fold (cps cs).
  pose proof (proj1 (words_spans (e_u_space E) cs) [] []) as HW. cbn [app] in HW. change (units []) with 0 in HW. unfold unmatched, units in HW. fold (cps cs) in HW.
  f_equal. set (L := filter _ _) in *.
  transitivity (map (fun m => mkSplit (to_utf8 (usub_between (flat_map utf16_enc cs) (fst m) (snd m))) (fst m + fst (sp_off s), snd m + fst (sp_off s)) []) (map fst L)).
  { rewrite map_map. apply map_ext. intros [[a z] f]. reflexivity. }
  rewrite HW, map_map. apply map_ext_in. intros p Hp. pose proof (proj1 (Forall_forall _ _) (words_inside (e_u_space E) cs [] []) p Hp) as (_ & post & Hpost). cbn [app] in Hpost.
  unfold piece_split, piece_span. cbn [fst snd]. f_equal. rewrite Hpost. apply piece_slice. rewrite <- Hpost. exact Hv.
Qed.

Lemma punct_split E s : split_normalized s (find_matches E pat_punct) ISOLATED = Ok (map (piece_split (fst (sp_off s))) (isolate (e_u_punct E) [] [] (decoded (sp_text s)))).
Proof.
  destruct (decoded_units (sp_text s)) as [Hu Hv]. set (cs := decoded (sp_text s)) in *. unfold split_normalized. rewrite Hu.
  unfold find_matches, regex_matches. change (leqb pat_punct pat_space) with false. change (leqb pat_punct pat_punct) with true. cbn [bind]. rewrite utf16_cps_encs by exact Hv. fold (cps cs).
  pose proof (isolate_spans (e_u_punct E) cs [] []) as HW. cbn [app] in HW. change (units []) with 0 in HW. unfold units in HW. fold (cps cs) in HW.
  f_equal. rewrite filter_removed_isolated. rewrite map_map.
  transitivity (map (fun m => mkSplit (to_utf8 (usub_between (flat_map utf16_enc cs) (fst m) (snd m))) (fst m + fst (sp_off s), snd m + fst (sp_off s)) []) (map fst (with_gaps 0 (length (flat_map utf16_enc cs)) (class_matches (e_u_punct E) 0 (cps cs))))).
  { rewrite map_map. apply map_ext. intros [[a z] f]. reflexivity. }
  rewrite HW, map_map. apply map_ext_in. intros p Hp. pose proof (proj1 (Forall_forall _ _) (isolate_inside (e_u_punct E) cs [] []) p Hp) as (_ & post & Hpost). cbn [app] in Hpost.
  unfold piece_split, piece_span. cbn [fst snd]. f_equal. rewrite Hpost. apply piece_slice. rewrite <- Hpost. exact Hv.
Qed.

Definition bert_out (E : env) (s : split) : list split :=
  if is_nil (sp_tokens s) then map (piece_split (fst (sp_off s))) (bert_pieces (e_u_space E) (e_u_punct E) (decoded (sp_text s))) else [s].

Lemma forall2_map {A B} (R : A -> B -> Prop) (f : A -> B) l : (forall x, In x l -> R x (f x)) -> Forall2 R l (map f l).
Proof. induction l as [|x l IH]; intros H; cbn; constructor; [apply H; left; reflexivity | apply IH; intros; apply H; right; assumption]. Qed.

Lemma bert_pre_spec E p : bert_pre_tokenize E p = Ok (mkPt (pt_norm p) (flat_map (bert_out E) (pt_splits p))).
Proof.
  unfold bert_pre_tokenize, pt_split.
  set (f1 := fun s => if is_nil (sp_tokens s) then map (piece_split (fst (sp_off s))) (words (e_u_space E) [] [] (decoded (sp_text s))) else [s]).
  rewrite (split_all_concat _ _ (pt_splits p) (map f1 (pt_splits p))).
  2:{ apply forall2_map. intros s _. unfold f1. destruct (is_nil (sp_tokens s)); [apply space_split | reflexivity]. }
  cbn [bind pt_norm pt_splits].
  set (f2 := fun s => if is_nil (sp_tokens s) then map (piece_split (fst (sp_off s))) (isolate (e_u_punct E) [] [] (decoded (sp_text s))) else [s]).
  rewrite (split_all_concat _ _ (concat (map f1 (pt_splits p))) (map f2 (concat (map f1 (pt_splits p))))).
  2:{ apply forall2_map. intros s _. unfold f2. destruct (is_nil (sp_tokens s)); [apply punct_split | reflexivity]. }
  cbn [bind]. f_equal. f_equal. rewrite <- !flat_map_concat_map. induction (pt_splits p) as [|s l IH]; [reflexivity|]. cbn [flat_map]. rewrite flat_map_app, IH. f_equal.
  unfold f1, bert_out. destruct (is_nil (sp_tokens s)) eqn:Es.
  - unfold bert_pieces. destruct (decoded_units (sp_text s)) as [_ Hv]. pose proof (words_inside (e_u_space E) (decoded (sp_text s)) [] []) as HI. cbn [app] in HI.
    induction (words (e_u_space E) [] [] (decoded (sp_text s))) as [|w ws IHw]; [reflexivity|]. inversion HI as [|? ? Hw HI']; subst. cbn [map flat_map]. rewrite map_app, IHw by exact HI'. f_equal.
    unfold f2. cbn [piece_split sp_tokens is_nil sp_text sp_off fst]. destruct Hw as (_ & post & Hpost). rewrite Hpost, !forallb_app in Hv.
    apply andb_prop in Hv as [_ Hv]. apply andb_prop in Hv as [Hv _]. rewrite decoded_encs by exact Hv. rewrite map_map. apply map_ext. intros q.
    unfold piece_split, piece_span. cbn [fst snd]. rewrite !units_app. f_equal. f_equal; lia.
  - cbn [flat_map]. unfold f2. rewrite Es. reflexivity.
Qed.

(** ** The fixed patterns give ordered matches at character boundaries *)
Lemma ordered_weaken cur cur' len l : cur' <= cur -> ordered cur len l -> ordered cur' len l.
Proof. intros H. destruct l as [|[a z] l]; cbn; [lia|]. intros (H1 & H2 & H3 & H4). repeat split; try lia; exact H4. Qed.

Definition cut (cs : wstr) (p : nat) : Prop := exists pre post, cs = pre ++ post /\ p = units pre.
Lemma cut_boundary cs p : forallb valid_cp cs = true -> cut cs p -> char_boundary (flat_map utf16_enc cs) p.
Proof.
  intros Hv (pre & post & -> & ->) q h t Hq Hh Ht [Hl Htr]. rewrite flat_map_app in Hh, Ht.
  assert (Hlen : length (flat_map utf16_enc pre) = S q) by exact Hq.
  rewrite nth_error_app1 in Hh by lia. destruct (rev pre) as [|c r] eqn:E.
  - apply (f_equal (@rev N)) in E. rewrite rev_involutive in E. subst pre. discriminate.
  - apply (f_equal (@rev N)) in E. rewrite rev_involutive in E. cbn in E. subst pre.
    rewrite !forallb_app in Hv. apply andb_prop in Hv as [Hv _]. apply andb_prop in Hv as [_ Hv]. cbn in Hv. rewrite andb_true_r in Hv. apply valid_cp_spec in Hv.
    rewrite flat_map_app in Hh, Hlen. cbn [flat_map] in Hh, Hlen. rewrite app_nil_r in Hh, Hlen. rewrite app_length in Hlen.
    remember (flat_map utf16_enc (rev r)) as A eqn:EA. clear EA. unfold utf16_enc in Hh, Hlen.
    unfold is_lead in Hl. destruct (N.ltb_spec c 65536).
    + cbn [length] in Hlen. rewrite nth_error_app2 in Hh by lia. replace (q - length A) with 0 in Hh by lia. cbn [nth_error] in Hh. injection Hh as <-. lia.
    + cbn [length] in Hlen. rewrite nth_error_app2 in Hh by lia. replace (q - length A) with 1 in Hh by lia. cbn [nth_error] in Hh. apply (f_equal (fun o => match o with Some v => v | None => 0%N end)) in Hh. cbn iota in Hh. subst h.
      apply andb_prop in Hl as [_ Hl]. apply N.leb_le in Hl. clear - Hl. revert Hl. generalize ((c - 65536) mod 1024)%N. intros m Hm. lia.
Qed.

Lemma run_matches_ok f cs : forall cs0 pre open cur, cs0 = pre ++ cs ->
  match open with Some s => cur <= s /\ s <= units pre /\ cut cs0 s | None => cur <= units pre end ->
  ordered cur (units cs0) (run_matches f (units pre) open (cps cs)) /\
  Forall (fun m => cut cs0 (fst m) /\ cut cs0 (snd m)) (run_matches f (units pre) open (cps cs)).
Proof.
  induction cs as [|c cs IH]; intros cs0 pre open cur H0 Ho.
  - rewrite app_nil_r in H0. subst cs0. cbn [cps map run_matches]. destruct open as [s|]; cbn.
    + split; [lia|]. constructor; [|constructor]. cbn. split; [apply Ho|]. exists pre, []. rewrite app_nil_r. auto.
    + split; [lia | constructor].
  - cbn [cps map run_matches]. fold (cps cs). replace (units pre + cp_width c) with (units (pre ++ [c])) by (rewrite units_app, units_1; reflexivity).
    assert (H1 : cs0 = (pre ++ [c]) ++ cs) by (rewrite H0, <- app_assoc; reflexivity).
    assert (Hcut : cut cs0 (units pre)) by (exists pre, (c :: cs); auto).
    assert (Hle : units pre <= units (pre ++ [c])) by (rewrite units_app; lia).
    assert (Hle0 : units pre <= units cs0) by (rewrite H0, units_app; lia).
    destruct (f c).
    + apply IH; [exact H1|]. destruct open as [s|]; [split; [lia|]; split; [lia | apply Ho] | split; [lia|]; split; [lia | exact Hcut]].
    + destruct open as [s|].
      * destruct (IH cs0 (pre ++ [c]) None (units pre) H1 Hle) as [Ha Hb]. split.
        -- cbn [ordered]. destruct Ho as (Ho1 & Ho2 & _). repeat split; try lia. exact Ha.
        -- constructor; [cbn; split; [apply Ho | exact Hcut] | exact Hb].
      * apply IH; [exact H1 | lia].
Qed.
Lemma class_matches_ok f cs : forall cs0 pre cur, cs0 = pre ++ cs -> cur <= units pre ->
  ordered cur (units cs0) (class_matches f (units pre) (cps cs)) /\
  Forall (fun m => cut cs0 (fst m) /\ cut cs0 (snd m)) (class_matches f (units pre) (cps cs)).
Proof.
  induction cs as [|c cs IH]; intros cs0 pre cur H0 Ho.
  - rewrite app_nil_r in H0. subst cs0. cbn. split; [lia | constructor].
  - cbn [cps map class_matches]. fold (cps cs). replace (units pre + cp_width c) with (units (pre ++ [c])) by (rewrite units_app, units_1; reflexivity).
    assert (H1 : cs0 = (pre ++ [c]) ++ cs) by (rewrite H0, <- app_assoc; reflexivity).
    assert (Hle : units pre <= units (pre ++ [c])) by (rewrite units_app; lia).
    assert (Hle0 : units (pre ++ [c]) <= units cs0) by (rewrite H1, (units_app (pre ++ [c])); lia).
    destruct (f c).
    + destruct (IH cs0 (pre ++ [c]) (units (pre ++ [c])) H1 (le_n _)) as [Ha Hb]. split.
      * cbn [ordered]. repeat split; try lia. exact Ha.
      * constructor; [cbn; split; [exists pre, (c :: cs) | exists (pre ++ [c]), cs]; auto | exact Hb].
    + apply IH; [exact H1 | lia].
Qed.
Lemma apos_matches_ok u : forall u0 pre cur, u0 = pre ++ u -> cur <= length pre ->
  ordered cur (length u0) (apos_matches (length pre) u) /\
  Forall (fun m => char_boundary u0 (fst m) /\ char_boundary u0 (snd m)) (apos_matches (length pre) u).
Proof.
  remember (length u) as n eqn:Hn. assert (Hl : length u <= n) by lia. clear Hn. revert u Hl.
  induction n as [|n IH]; intros u Hl u0 pre cur H0 Ho.
  - destruct u; [|cbn in Hl; lia]. rewrite app_nil_r in H0. subst u0. cbn. split; [lia | constructor].
  - destruct u as [|x u]; [rewrite app_nil_r in H0; subst u0; cbn; split; [lia | constructor]|]. cbn [length] in Hl. cbn [apos_matches].
    assert (H1 : u0 = (pre ++ [x]) ++ u) by (rewrite H0, <- app_assoc; reflexivity).
    assert (E1 : length (pre ++ [x]) = length pre + 1) by (rewrite app_length; reflexivity).
    destruct (N.eqb_spec x 39) as [->|].
    + assert (Hb0 : char_boundary u0 (length pre)).
      { intros q h t _ _ Ht [_ Htr]. rewrite H0, nth_error_app2, Nat.sub_diag in Ht by lia. cbn in Ht. injection Ht as <-. discriminate Htr. }
      assert (Hb1 : char_boundary u0 (length pre + 1)).
      { intros q h t Hq Hh _ [Hlead _]. replace q with (length pre) in Hh by lia. rewrite H0, nth_error_app2, Nat.sub_diag in Hh by lia. cbn in Hh. injection Hh as <-. discriminate Hlead. }
      destruct u as [|y u].
      * assert (Hlen : length u0 = length pre + 1) by (rewrite H1, app_nil_r; exact E1). cbn [ordered apos_matches]. split; [repeat split; lia|]. constructor; [cbn; auto | constructor].
      * destruct (N.eqb_spec y 115) as [->|].
        -- assert (H2 : u0 = (pre ++ [39; 115]%N) ++ u) by (rewrite H0, <- app_assoc; reflexivity).
           assert (E2 : length (pre ++ [39; 115]%N) = length pre + 2) by (rewrite app_length; reflexivity).
           destruct (IH u ltac:(cbn in Hl; lia) u0 (pre ++ [39; 115]%N) (length pre + 2) H2 ltac:(lia)) as [Ha Hb]. rewrite E2 in Ha, Hb.
           assert (Hlen : length u0 = length pre + 2 + length u) by (rewrite H2, app_length; lia).
           split; [cbn [ordered]; repeat split; try lia; exact Ha|]. constructor; [|exact Hb]. cbn [fst snd]. split; [exact Hb0|].
           intros q h t Hq Hh _ [Hlead _]. replace q with (S (length pre)) in Hh by lia. rewrite H0, nth_error_app2 in Hh by lia. replace (S (length pre) - length pre) with 1 in Hh by lia. cbn in Hh. injection Hh as <-. discriminate Hlead.
        -- destruct (IH (y :: u) ltac:(lia) u0 (pre ++ [39%N]) (length pre + 1) H1 ltac:(lia)) as [Ha Hb]. rewrite E1 in Ha, Hb.
           assert (Hlen : length u0 = length pre + 1 + length (y :: u)) by (rewrite H1, app_length; lia).
           split; [cbn [ordered]; repeat split; try lia; exact Ha|]. constructor; [cbn; auto | exact Hb].
    + destruct (IH u ltac:(lia) u0 (pre ++ [x]) cur H1 ltac:(lia)) as [Ha Hb]. rewrite E1 in Ha, Hb. auto.
Qed.

Lemma fixed_patterns_ok E pat t : In pat [pat_space; pat_punct; byte_level_pattern] -> exists l, regex_matches E pat (from_utf8 t) = Ok l /\
  ordered 0 (length (from_utf8 t)) l /\ Forall (fun m => char_boundary (from_utf8 t) (fst m) /\ char_boundary (from_utf8 t) (snd m)) l.
Proof.
  intros Hp. destruct (decoded_units t) as [Hu Hv]. set (cs := decoded t) in *.
  assert (HB : forall l, Forall (fun m => cut cs (fst m) /\ cut cs (snd m)) l -> Forall (fun m => char_boundary (from_utf8 t) (fst m) /\ char_boundary (from_utf8 t) (snd m)) l).
  { intros l H. eapply Forall_impl; [|exact H]. cbn beta. intros m [H1 H2]. rewrite Hu. split; apply cut_boundary; assumption. }
  destruct Hp as [<-|[<-|[<-|[]]]].
  - destruct (run_matches_ok (e_u_space E) cs cs [] None 0 eq_refl (le_n _)) as [H1 H2].
    eexists. split; [unfold regex_matches; change (leqb pat_space pat_space) with true; cbn iota; rewrite Hu, utf16_cps_encs by exact Hv; reflexivity|].
    rewrite Hu at 1. split; [exact H1 | apply HB; exact H2].
  - destruct (class_matches_ok (e_u_punct E) cs cs [] 0 eq_refl (le_n _)) as [H1 H2].
    eexists. split; [unfold regex_matches; change (leqb pat_punct pat_space) with false; change (leqb pat_punct pat_punct) with true; cbn iota; rewrite Hu, utf16_cps_encs by exact Hv; reflexivity|].
    rewrite Hu at 1. split; [exact H1 | apply HB; exact H2].
  - destruct (apos_matches_ok (from_utf8 t) (from_utf8 t) [] 0 eq_refl (le_n _)) as [H1 H2]. eexists. split; [reflexivity|]. split; assumption.
Qed.
