(** Base vocabulary of the model: outcomes of a C++ call, strings, vectors and hash maps.
    This file models no file of /repo by itself; it fixes how C++ values are represented. *)
From Coq Require Export List Arith NArith ZArith Bool Lia.
From Coq Require Ascii String QArith_base.
Export String.StringSyntax.
#[global] Open Scope string_scope.
Export ListNotations.
#[global] Open Scope list_scope.
#[global] Open Scope nat_scope.

(** ** Outcomes *)

(** C++ exceptions that can leave the modelled functions. *)
(** thrown at tokenizer.cpp:26, 84, 114, normalizer.cpp:262, 569 and by the library calls common.cpp:59-67 and added_vocabulary.cpp:206-312 *)
Inductive exn :=
| InvalidArgument     (* std::invalid_argument *)
| RuntimeError        (* std::runtime_error *)
| OutOfRange          (* std::out_of_range (at, substr) *)
| LengthError         (* std::length_error (vector growth beyond max_size) *)
| RangeError          (* std::range_error (wstring_convert) *)
| RegexError          (* std::regex_error *)
| BadOptionalAccess   (* std::bad_optional_access *)
| SimdjsonError.      (* simdjson::simdjson_error *)

(** Undefined behaviour, as a distinct outcome. *)
(** models no line of its own: what the C++ standard leaves undefined *)
Inductive ub :=
| OobIndex            (* operator[] / iterator arithmetic outside a vector or string *)
| NullDeref           (* dereference of a null unique_ptr / pointer *)
| DerefEnd            (* dereference of end() *)
| IterInvalidated     (* use of an invalidated iterator *)
| IntOverflow.        (* signed integer overflow; only in IntChecked.v and NormIntChecked.v, AddIntChecked.v *)

(** [Diverge]: a loop consumed its explicit fuel. A call diverges when it yields [Diverge] for every fuel. *)
(** models no line of its own: the ways a C++ call can end *)
Inductive res (A : Type) :=
| Ok (a : A)
| Throw (e : exn)
| Undef (u : ub)
| Diverge.
Arguments Ok {A} _. Arguments Throw {A} _. Arguments Undef {A} _. Arguments Diverge {A}.

(** sequencing of C++ statements; an exception or undefined behaviour ends the function *)
Definition bind {A B} (x : res A) (f : A -> res B) : res B :=
  match x with
  | Ok a => f a
  | Throw e => Throw e
  | Undef u => Undef u
  | Diverge => Diverge
  end.
Notation "x <- e ;; k" := (bind e (fun x => k)) (at level 61, e at next level, right associativity).
Notation "' p <- e ;; k" := (bind e (fun p => k))
  (at level 61, p pattern, e at next level, right associativity).

(** A sequential loop over a vector with a state (range-for). *)
(** e.g. decoder.cpp:117-130, added_vocabulary.cpp:330-346 *)
Fixpoint foldM {A S} (f : S -> A -> res S) (s : S) (l : list A) : res S :=
  match l with
  | [] => Ok s
  | x :: r => s' <- f s x ;; foldM f s' r
  end.

(** A loop that pushes one result per element, e.g. model.cpp:144-197, pre_tokenizer.cpp:265-271 *)
Fixpoint mapM {A B} (f : A -> res B) (l : list A) : res (list B) :=
  match l with
  | [] => Ok []
  | x :: r => y <- f x ;; ys <- mapM f r ;; Ok (y :: ys)
  end.

(** ** Strings *)
(** std::string = list of bytes (0..255); std::wstring = list of 32-bit wchar_t values (Linux ABI);
    icu::UnicodeString = list of UTF-16 code units. *)
Definition bytes := list N.
(** std::wstring, the argument of Tokenizer::encode (tokenizer.h:25) *)
Definition wstr := list N.
(** icu::UnicodeString, e.g. model.cpp:146 *)
Definition ustr := list N.

(** ASCII literals of the source. *)
(** e.g. the literals of utils.cpp:15-38 *)
Definition str (s : String.string) : list N := map Ascii.N_of_ascii (String.list_ascii_of_string s).

(** operator== of strings, e.g. utils.cpp:16-24 *)
Fixpoint leqb (a b : list N) : bool :=
  match a, b with
  | [], [] => true
  | x :: a', y :: b' => N.eqb x y && leqb a' b'
  | _, _ => false
  end.

(** empty(), e.g. tokenizer.cpp:25 *)
Definition is_nil {A} (l : list A) : bool := match l with [] => true | _ => false end.

(** [s] starts with [p]. *)
(** decoder.cpp:138 token.find(prefix) == 0 *)
Fixpoint is_prefix (p s : list N) : bool :=
  match p, s with
  | [], _ => true
  | x :: p', y :: s' => N.eqb x y && is_prefix p' s'
  | _ :: _, [] => false
  end.

(** ** std::vector *)
(** operator[] *)
(** e.g. tokenizer.cpp:140-148 *)
Definition vat {A} (l : list A) (i : nat) : res A :=
  match nth_error l i with Some x => Ok x | None => Undef OobIndex end.

(** vector(first + a, first + b) *)
(** utils.cpp:79-112 *)
Definition vslice {A} (l : list A) (a b : nat) : res (list A) :=
  if (a <=? b) && (b <=? length l) then Ok (firstn (b - a) (skipn a l)) else Undef OobIndex.

(** erase(begin + a, begin + b) *)
(** e.g. normalizer.cpp:204-250 *)
Definition verase {A} (l : list A) (a b : nat) : res (list A) :=
  if (a <=? b) && (b <=? length l) then Ok (firstn a l ++ skipn b l) else Undef OobIndex.

(** insert(begin + i, xs.begin(), xs.end()) *)
(** e.g. normalizer.cpp:204-250 *)
Definition vinsert {A} (l : list A) (i : nat) (xs : list A) : res (list A) :=
  if i <=? length l then Ok (firstn i l ++ xs ++ skipn i l) else Undef OobIndex.

(** l[i] = x *)
(** normalizer.cpp:495-507 *)
Definition vset {A} (l : list A) (i : nat) (x : A) : res (list A) :=
  if i <? length l then Ok (firstn i l ++ x :: skipn (S i) l) else Undef OobIndex.

(** size_t value of a (possibly negative) int in a mixed comparison. *)
Definition size_t_of_int (z : Z) : Z := Z.modulo z (2 ^ 64).

(** ** std::unordered_map<std::string,int> and <int,...> as association lists.
    The list order stands for the (unspecified) iteration order. *)
(** model.h:29, added_vocabulary.h:49 *)
Definition smap (V : Type) := list (list N * V).

(** find of a string key, e.g. model.cpp:119-125 *)
Fixpoint sfind {V} (k : list N) (m : smap V) : option V :=
  match m with
  | [] => None
  | (k', v) :: r => if leqb k k' then Some v else sfind k r
  end.

(** m.insert({k,v}): keeps an existing entry. *)
(** utils.cpp:291, model.cpp:434 *)
Definition sinsert {V} (k : list N) (v : V) (m : smap V) : smap V :=
  match sfind k m with Some _ => m | None => m ++ [(k, v)] end.

(** m[k] = v *)
(** added_vocabulary.cpp:93, 179-182 *)
Fixpoint sset {V} (k : list N) (v : V) (m : smap V) : smap V :=
  match m with
  | [] => [(k, v)]
  | (k', v') :: r => if leqb k k' then (k', v) :: r else (k', v') :: sset k v r
  end.

(** std::unordered_map with int keys: model.h:30, added_vocabulary.h:50 *)
Definition zmap (V : Type) := list (Z * V).

(** find of an int key: model.cpp:128, added_vocabulary.cpp:48 *)
Fixpoint zfind {V} (k : Z) (m : zmap V) : option V :=
  match m with
  | [] => None
  | (k', v) :: r => if Z.eqb k k' then Some v else zfind k r
  end.

(** m[k] = v with int keys: model.cpp:113, added_vocabulary.cpp:94 *)
Fixpoint zset {V} (k : Z) (v : V) (m : zmap V) : zmap V :=
  match m with
  | [] => [(k, v)]
  | (k', v') :: r => if Z.eqb k k' then (k', v) :: r else (k', v') :: zset k v r
  end.

(** std::unordered_set<std::string>::count *)
(** added_vocabulary.cpp:44 *)
Definition smem (k : list N) (s : list (list N)) : bool := existsb (leqb k) s.

(** ** The environment: everything outside the repository the code calls.
    Theorems quantify over all environments; whatever a theorem needs of one is a visible hypothesis. *)
(** normalizer.h:96-118 *)
Inductive nform := NFC | NFD | NFKC | NFKD.

(** model.cpp Merge (model.h): position, rank, new id. Declared here because the environment's priority
    queue ranges over it. *)
(** model.h:64-71 class Merge *)
Record merge := mkMerge { mg_pos : nat; mg_rank : Z; mg_new : Z }.

(** the library functions called at normalizer.cpp:259, 434, 445, 518, 536, 569-584, pre_tokenizer.cpp:105-130, model.cpp:230-247 *)
Record env := {
  (* icu::Normalizer::normalize on a string of Unicode scalar values; None = U_FAILURE *)
  e_norm : nform -> wstr -> option wstr;
  (* u_charType(c) == U_NON_SPACING_MARK *)
  e_is_mn : N -> bool;
  (* libc wide character classification in the current locale *)
  e_iswspace : N -> bool;
  e_iswcntrl : N -> bool;
  e_towlower : N -> N;
  (* ICU regex classes \s and \p{P} *)
  e_u_space : N -> bool;
  e_u_punct : N -> bool;
  (* all matches of any other ICU pattern, in order; None = the pattern does not compile *)
  e_icu_matches : bytes -> ustr -> option (list (nat * nat));
  (* std::wregex: does the pattern compile; next match (absolute position, length) when searching from a
     position, the flag telling that the previous match was empty *)
  e_wregex_ok : wstr -> bool;
  e_wregex_next : wstr -> wstr -> nat -> bool -> option (nat * nat);
  (* the string library keeps iterators usable when one character is replaced in place (libstdc++ does) *)
  e_inplace : bool;
  (* plain char is signed (x86, not ARM) *)
  e_char_signed : bool;
  (* k-th draw of a default-seeded default_random_engine through uniform_real_distribution(0,1) *)
  e_draw : nat -> QArith_base.Q;
  (* std::priority_queue<Merge>::top + pop on the multiset of queued merges *)
  e_pq : list merge -> option (merge * list merge)
}.
