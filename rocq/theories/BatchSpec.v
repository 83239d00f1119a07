(** When two lists of added tokens ask for the same thing. *)
From Verif Require Import Base Common AddedVocab.
Import ListNotations.
(** the settings that say where a token is recognised: single_word, lstrip, rstrip, normalized *)
Definition settings (t : added_token) : bool * bool * bool * bool := (at_single_word t, at_lstrip t, at_rstrip t, at_normalized t).
(** a text that is given more than once is given with the same settings each time *)
Definition settled (l : list added_token) : Prop := forall a b, In a l -> In b l -> at_content a = at_content b -> settings a = settings b.
(** the list asks for the text with these settings *)
Definition asks (l : list added_token) (text : bytes) (st : bool * bool * bool * bool) : Prop := exists a, In a l /\ at_content a = text /\ settings a = st.
(** the two lists ask for the same tokens, as far as the vocabulary [v] knows their texts *)
Definition same_requests (v : smap Z) (l l' : list added_token) : Prop := forall text st, (exists k, sfind text v = Some k) -> (asks l text st <-> asks l' text st).
