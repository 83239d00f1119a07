(** A concrete environment, used only for examples and witnesses: glibc/ICU behaviour on a small part of Unicode and a
    priority queue kept as a list.  No theorem assumes the environment is this one. *)
From Verif Require Import Base BaseFacts Common Bpe.
From Coq Require Import Permutation ZifyBool.
From Coq Require QArith_base.

(** top of the queue: the first of the entries with the greatest rank *)
Fixpoint list_pq (q : list merge) : option (merge * list merge) :=
  match q with
  | [] => None
  | x :: r =>
    match list_pq r with
    | None => Some (x, [])
    | Some (t, r') => if merge_lt x t then Some (t, x :: r') else Some (x, r)
    end
  end.

(** canonical decomposition of a few characters, Hangul syllables included *)
Definition hangul (c : N) : list N :=
  let s := (c - 0xAC00)%N in
  let l := (0x1100 + s / 588)%N in
  let v := (0x1161 + (s mod 588) / 28)%N in
  let t := (0x11A7 + s mod 28)%N in
  if (t =? 0x11A7)%N then [l; v] else [l; v; t].
Definition decompose1 (c : N) : list N :=
  if (c =? 0xE9)%N then [0x65; 0x301]%N
  else if (c =? 0x1EA5)%N then [0x61; 0x302; 0x301]%N
  else if (0xAC00 <=? c)%N && (c <=? 0xD7A3)%N then hangul c
  else [c].

Definition test_norm (f : nform) (w : wstr) : option wstr :=
  match f with
  | NFD | NFKD => Some (flat_map decompose1 w)
  | NFC | NFKC => Some w
  end.

Definition ascii_space (c : N) : bool := ((c =? 32) || (9 <=? c) && (c <=? 13))%N.
Definition ascii_punct (c : N) : bool :=
  existsb (N.eqb c) [33; 34; 35; 37; 38; 39; 40; 41; 42; 44; 45; 46; 47; 58; 59; 63; 64; 91; 92; 93; 95; 123; 125]%N.

(** literal search: first occurrence of [p] in [s] at or after [from] *)
Fixpoint find_lit (p s : list N) (pos : nat) : option nat :=
  if is_prefix p s then Some pos
  else match s with [] => None | _ :: r => find_lit p r (S pos) end.

Definition test_env : env := {|
  e_norm := test_norm;
  e_is_mn := fun c => ((0x300 <=? c) && (c <=? 0x36F))%N;
  e_iswspace := ascii_space;
  e_iswcntrl := fun c => ((c <? 32) || (127 <=? c) && (c <=? 159))%N;
  e_towlower := fun c => if ((65 <=? c) && (c <=? 90))%N then (c + 32)%N else c;
  e_u_space := fun c => (ascii_space c || (c =? 0xA0) || (c =? 0x3000))%N;
  e_u_punct := ascii_punct;
  e_icu_matches := fun _ _ => Some [];
  e_wregex_ok := fun _ => true;
  e_wregex_next := fun p s from _ => match find_lit p (skipn from s) from with Some i => Some (i, length p) | None => None end;
  e_inplace := true;
  e_char_signed := true;
  e_draw := fun k => QArith_base.Qmake (Z.of_nat (k mod 10)) 10;
  e_pq := list_pq |}.

Lemma list_pq_ok q : match list_pq q with
                     | None => q = []
                     | Some (t, q') => Permutation q (t :: q') /\ (forall x, In x q -> merge_lt t x = false)
                     end.
Proof.
  induction q as [|x r IH]; cbn; [reflexivity|]. destruct (list_pq r) as [[t r']|].
  - destruct IH as [Hp Ht]. unfold merge_lt in *. destruct (mg_rank x <? mg_rank t)%Z eqn:E.
    + split.
      * rewrite Hp. apply perm_swap.
      * intros y [<-|Hy]; [lia | auto].
    + split; [reflexivity|]. intros y [<-|Hy]; [lia|]. specialize (Ht y Hy). lia.
  - subst r. split; [reflexivity|]. intros y [<-|[]]. unfold merge_lt. lia.
Qed.

Lemma test_env_pq : pq_ok test_env.
Proof. intros q. apply list_pq_ok. Qed.
