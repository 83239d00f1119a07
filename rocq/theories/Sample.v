(** Small concrete encodings used by the non-vacuity examples. *)
From Verif Require Import Base Common.

(** An encoding of [n] tokens with recognisable columns. *)
Definition sample (n : nat) : encoding :=
  let l := seq 0 n in
  mkEnc (map (fun i => Z.of_nat i + 100)%Z l) (map (fun _ => 0%Z) l) (map (fun i => [N.of_nat i]) l) (map (fun i => Some i) l)
        (map (fun i => (i, S i)) l) (map (fun _ => 0%Z) l) (map (fun _ => 1%Z) l) [].
