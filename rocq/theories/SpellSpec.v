(** Documents that differ only in how their strings are spelled (C114). *)
From Verif Require Import Base Config EscSpec.

(** the two texts stand for the same string, or both for none *)
Definition same_string (raw raw' : bytes) : Prop := forall s, json_string raw s <-> json_string raw' s.
(** [respelled j j']: the same document, its string values spelled differently (object keys are untouched) *)
Inductive respelled : json -> json -> Prop :=
| rs_same j : respelled j j
| rs_str raw raw' : same_string raw raw' -> respelled (JStr raw) (JStr raw')
| rs_arr l l' : Forall2 respelled l l' -> respelled (JArr l) (JArr l')
| rs_obj l l' : Forall2 (fun p q => fst p = fst q /\ respelled (snd p) (snd q)) l l' -> respelled (JObj l) (JObj l').
