(** Induction over the overflowing tree, and parallel columns. *)
From Verif Require Import Base BaseFacts Common Spec.

Fixpoint encoding_size (e : encoding) : nat :=
  match e with mkEnc _ _ _ _ _ _ _ ov => S (fold_right (fun x n => encoding_size x + n) 0 ov) end.

Lemma encoding_induction (P : encoding -> Prop) :
  (forall e, Forall P (en_overflowing e) -> P e) -> forall e, P e.
Proof.
  intros H. fix go 1. intros [i t k w o s m ov]. apply H. cbn [en_overflowing].
  induction ov as [|x ov IH]; constructor; [apply go | exact IH].
Qed.

Lemma with_overflow_parallel e o : flat_parallel e -> Forall parallel o -> parallel (with_overflow e o).
Proof. intros H Ho. constructor; [exact H | exact Ho]. Qed.

Lemma cut_length {A} (l : list A) a b : b <= length l -> length (cut l a b) = b - a.
Proof. intros H. unfold cut. rewrite firstn_length, skipn_length. lia. Qed.

Lemma window_flat e a b : flat_parallel e -> b <= length (en_ids e) -> flat_parallel (window e a b).
Proof.
  intros (H1 & H2 & H3 & H4 & H5 & H6) Hb. unfold flat_parallel, window.
  cbn [en_ids en_type_ids en_tokens en_words en_offsets en_smask en_amask].
  rewrite !cut_length by lia. repeat split; reflexivity.
Qed.

Lemma window_length e a b : b <= length (en_ids e) -> length (en_ids (window e a b)) = b - a.
Proof. intros H. cbn [window en_ids]. apply cut_length; exact H. Qed.
