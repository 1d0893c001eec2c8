(* One row of alpha_pq_boundaries.txt: a single number, the given double to eight decimals. *)
From Coq Require Import String Reals.
From Verif Require Import Common TextModel TextSpec.
Definition gives (row : option (list string)) (x : double) : Prop :=
  finite x -> exists s v, row = Some [s] /\ read_real s = Some v /\ to_decimals 8 (value x) v.
