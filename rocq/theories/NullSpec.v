(** What null means for the keys of a component (C113): the table of defaults, and documents that differ only in that. *)
From Verif Require Import Base Common Config ConfigSpec.

(** the value null stands for, by the kind of the key *)
Definition default_of (k : kind) : json :=
  match k with
  | KStr => JStr []                          (* the empty string *)
  | KBool => JBool false
  | KInt | KNum => JInt 0
  | KArr | KStrs | KPieces => JArr []        (* no merges, no template *)
  | KIds | KSpecials | KStrategy => JObj []  (* no vocabulary, no special tokens, no strategy *)
  | KIn key => JObj [(str key, JStr [])]     (* the empty pattern *)
  end.
(** the values of the keys agree, except that null in [o] may be its default in [o'] *)
Definition spelled_out (keys : list (String.string * kind)) (o o' : list (bytes * json)) : Prop :=
  Forall (fun e => exists v v', has o (fst e) v /\ has o' (fst e) v' /\ (v' = v \/ v = JNull /\ v' = default_of (snd e))) keys.
(** [filled top j j']: [j'] is the component [j] with some of its nulls spelled out, at any depth of its sequences. Keys outside the tables do not matter. *)
Inductive filled (top : String.string) : json -> json -> Prop :=
| fi_same j : filled top j j
| fi_plain o o' keys : In (top, keys) required_plain -> spelled_out keys o o' -> filled top (JObj o) (JObj o')
| fi_keys o o' name keys : has o "type" (jname name) -> has o' "type" (jname name) -> In (top, name, keys) required -> spelled_out keys o o' -> filled top (JObj o) (JObj o')
| fi_sequence o o' key l l' : has o "type" (jname "Sequence") -> has o' "type" (jname "Sequence") -> In (top, key) elements -> has o key (JArr l) -> has o' key (JArr l') ->
    Forall2 (filled top) l l' -> filled top (JObj o) (JObj o').
