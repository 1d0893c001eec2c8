(* Small specification for C21-C24. *)
From Coq Require Import Permutation Sorted String.
From Verif Require Import Common PWModel PioModel.
Open Scope nat_scope.

(* the contract of std::sort applied to indices: a permutation of 0..n-1 whose keys do not decrease *)
Definition sorts (srt : list Z -> list nat) : Prop :=
  forall keys, Permutation (srt keys) (seq 0 (length keys)) /\
    StronglySorted Z.le (map (fun i => nth i keys 0%Z) (srt keys)).

(* row-major order, strict *)
Definition before {V} (a b : elem V) : Prop :=
  (e_row V a < e_row V b)%Z \/ (e_row V a = e_row V b /\ (e_col V a < e_col V b)%Z).

(* == decides equality of the doubles that occur (no NaN) *)
Definition decides_eq {V} (veqb : V -> V -> bool) : Prop := forall a b, veqb a b = true <-> a = b.

(* a model space as the program builds it: Np+1 and Nq+1 boundaries, and a non-empty channel with one J and parity *)
Definition well_formed {V} (sp : space V) : Prop :=
  length (sp_pb V sp) = sp_Np V sp + 1 /\ length (sp_qb V sp) = sp_Nq V sp + 1 /\ sp_pw V sp <> [] /\
  forall s t, In s (sp_pw V sp) -> In t (sp_pw V sp) -> two_J_3N s = two_J_3N t /\ P_3N s = P_3N t.
