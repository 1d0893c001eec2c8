(* Specification of the life of stored permutation matrices (C78). *)
From Coq Require Import Permutation Sorted String.
From Verif Require Import Common PWModel NameModel PioModel PioSpec PRunModel.
Open Scope nat_scope.

(* what identifies a stored matrix: 2J and parity of the channel, grid sizes, J_2N_max *)
Definition key_of {V} (sp : space V) (J2 : Z) : Z * Z * Z * Z * Z :=
  let '(J, P) := match sp_pw V sp with s :: _ => (two_J_3N s, P_3N s) | [] => (0, 0)%Z end in
  (J, P, Z.of_nat (sp_Np V sp), Z.of_nat (sp_Nq V sp), J2).
Definition run_key {V} (r : crun V) := key_of (r_sp V r) (r_J2 V r).
Definition final_name {V} (folder : string) (sp : space V) (J2 : Z) : string :=
  let '(J, P, Np, Nq, J2) := key_of sp J2 in P123_file_name folder J P Np Nq J2.
Definition thread_name {V} (folder : string) (r : crun V) (t k : nat) : string :=
  let '(J, P, Np, Nq, J2) := run_key r in subarray_file_name folder J P Np Nq J2 (Z.of_nat t) (Z.of_nat k).

(* res is the matrix of [value] on overlapping cells: sorted by row and column, zeros left out *)
Definition matrix_of {V} (vzero : V -> bool) (sp : space V) (ovl : nat -> nat -> nat -> nat -> bool)
  (value : nat -> nat -> nat -> nat -> nat -> nat -> V) (res : list (elem V)) : Prop :=
  let Na := length (sp_pw V sp) in let Np := sp_Np V sp in let Nq := sp_Nq V sp in
  StronglySorted before res /\
  forall row col v, In (row, col, v) res <->
    exists ap qp pp a q p, ap < Na /\ qp < Nq /\ pp < Np /\ a < Na /\ q < Nq /\ p < Np /\
      row = Z.of_nat (ap * Nq * Np + qp * Np + pp) /\ col = Z.of_nat (a * Nq * Np + q * Np + p) /\
      v = value ap qp pp a q p /\ ovl qp pp q p = true /\ vzero v = false.
(* r is a computing run for the matrix of [value]: well-formed model space, non-empty buffers, std::sort, file names that fit
   char[300], and each element of the matrix is emitted exactly once, by one of the threads *)
Record computes {V} (vzero : V -> bool) (folder : string) (r : crun V) (ovl : nat -> nat -> nat -> nat -> bool)
  (value : nat -> nat -> nat -> nat -> nat -> nat -> V) : Prop := {
  co_sp : well_formed (r_sp V r);
  co_B : 1 <= r_B V r;
  co_srt : sorts (r_srt V r);
  co_names : forall t k, t < r_T V r -> k <= length (r_evs V r) -> String.length (thread_name folder r t k) < 300;
  co_final : String.length (final_name folder (r_sp V r) (r_J2 V r)) < 300;
  co_buf : forall t, length (r_buf0 V r t) = r_B V r;
  co_thr : forall ev, In ev (r_evs V r) -> fst ev < r_T V r;
  co_evs : Permutation (map snd (r_evs V r))
             (flat_map (work V vzero (length (sp_pw V (r_sp V r))) (sp_Np V (r_sp V r)) (sp_Nq V (r_sp V r)) ovl value)
                       (seq 0 (sp_Nq V (r_sp V r)))) }.
