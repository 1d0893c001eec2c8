(* Property theorems about dense/sparse storage (C25-C28). *)
From Coq Require Import Permutation Sorted.
From Verif Require Import Common ArrayLib SparseModel SparseProofs.
Open Scope nat_scope.

(* C25: [coo] holds the row (column) number of each stored element, ordered. *)
Theorem C25_offsets coo dim :
  StronglySorted le coo -> (forall x, In x coo -> x < dim) ->
  length (coo_to_csr coo dim) = dim + 1 /\
  nth_error (coo_to_csr coo dim) 0 = Some 0 /\
  nth_error (coo_to_csr coo dim) dim = Some (length coo) /\
  forall i, i < dim -> exists a b,
    nth_error (coo_to_csr coo dim) i = Some a /\ nth_error (coo_to_csr coo dim) (i + 1) = Some b /\
    a <= b <= length coo /\
    forall j, j < length coo -> (a <= j < b <-> nth j coo 0 = i).
Proof. exact (csr_spec coo dim). Qed.
Print Assumptions C25_offsets.
Example C25_example : coo_to_csr [0; 0; 2; 2; 2; 4] 5 = [0; 2; 2; 5; 5; 6].
Proof. reflexivity. Qed.

(* The preparation of P123 in main.cpp l.230-245: sort column-major, then compress. *)
Theorem C25_p123_pipeline {V} dim rows cols (vals : list V) idx :
  length cols = length rows -> length vals = length rows -> (Z.of_nat dim < 2 ^ 31)%Z ->
  (forall r, In r rows -> r < dim) -> (forall c, In c cols -> c < dim) ->
  sort_indexes_contract (keys_col_major dim rows cols) idx ->
  exists rows' cols' vals',
    apply_sort rows cols vals idx = Ok (rows', cols', vals') /\
    length rows' = length rows /\ length cols' = length rows /\ length vals' = length rows /\
    Permutation (combine (combine rows' cols') vals') (combine (combine rows cols) vals) /\
    length (coo_to_csr cols' dim) = dim + 1 /\ nth_error (coo_to_csr cols' dim) 0 = Some 0 /\
    nth_error (coo_to_csr cols' dim) dim = Some (length rows) /\
    forall c, c < dim -> exists a b,
      nth_error (coo_to_csr cols' dim) c = Some a /\ nth_error (coo_to_csr cols' dim) (c + 1) = Some b /\
      a <= b <= length rows /\ forall j, j < length rows -> (a <= j < b <-> nth j cols' 0 = c).
Proof. exact (p123_pipeline dim rows cols vals idx). Qed.
Print Assumptions C25_p123_pipeline.
Example C25_pipeline_example :
  sort_indexes_contract (keys_col_major 3 [2; 0; 1] [1; 0; 1]) [1; 2; 0].
Proof.
  split; [ | repeat constructor; vm_compute; discriminate ].
  change (seq 0 _) with [0; 1; 2]. apply Permutation_sym, (Permutation_cons_append [1; 2] 0).
Qed.

(* C26 *)
Theorem C26_row_major {V} dim rows cols (vals : list V) idx :
  length cols = length rows -> length vals = length rows -> (Z.of_nat dim < 2 ^ 31)%Z ->
  (forall r, In r rows -> r < dim) -> (forall c, In c cols -> c < dim) ->
  sort_indexes_contract (keys_row_major dim rows cols) idx ->
  exists rows' cols' vals',
    apply_sort rows cols vals idx = Ok (rows', cols', vals') /\
    length rows' = length rows /\ length cols' = length rows /\ length vals' = length rows /\
    Permutation (combine (combine rows' cols') vals') (combine (combine rows cols) vals) /\
    StronglySorted (fun x y => fst x < fst y \/ (fst x = fst y /\ snd x <= snd y)) (combine rows' cols').
Proof. exact (sort_row_major dim rows cols vals idx). Qed.
Print Assumptions C26_row_major.

Theorem C26_col_major {V} dim rows cols (vals : list V) idx :
  length cols = length rows -> length vals = length rows -> (Z.of_nat dim < 2 ^ 31)%Z ->
  (forall r, In r rows -> r < dim) -> (forall c, In c cols -> c < dim) ->
  sort_indexes_contract (keys_col_major dim rows cols) idx ->
  exists rows' cols' vals',
    apply_sort rows cols vals idx = Ok (rows', cols', vals') /\
    length rows' = length rows /\ length cols' = length rows /\ length vals' = length rows /\
    Permutation (combine (combine rows' cols') vals') (combine (combine rows cols) vals) /\
    StronglySorted (fun x y => snd x < snd y \/ (snd x = snd y /\ fst x <= fst y)) (combine rows' cols').
Proof. exact (sort_col_major dim rows cols vals idx). Qed.
Print Assumptions C26_col_major.
Example C26_example : apply_sort [2; 0; 1] [1; 0; 1] [true; false; true] [1; 2; 0]
   = Ok ([0; 1; 2], [0; 1; 1], [false; true; true]).
Proof. reflexivity. Qed.

(* C27: the sparse list is exactly the non-zero elements in row-major order ... *)
Theorem C27_partial {V} (zero : V) (is_zero : V -> bool) dim mat :
  length mat = dim * dim ->
  (exists l, dense_to_coo V is_zero dim mat = Ok l /\ NoDup (map fst l) /\
    StronglySorted (fun s t => trow V s < trow V t \/ (trow V s = trow V t /\ tcol V s < tcol V t)) l /\
    forall r c v, In (r, c, v) l <->
      r < dim /\ c < dim /\ nth_error mat (r * dim + c) = Some v /\ is_zero v = false) /\
  ((forall v, is_zero v = true -> v = zero) ->
   (do l <- dense_to_coo V is_zero dim mat; coo_to_dense_intended V zero dim l) = Ok mat).
Proof.
  exact (fun H => conj (dense_to_coo_elements V zero is_zero dim mat H)
                       (fun Hz => round_trip V zero is_zero dim mat Hz H)).
Qed.
Print Assumptions C27_partial.
Example C27_example : dense_to_coo Z (Z.eqb 0) 2 [5; 0; 0; 7]%Z = Ok [(0, 0, 5%Z); (1, 1, 7%Z)].
Proof. reflexivity. Qed.
(* ... but the code's expansion routine never works: every matrix of dimension >= 2 reaches undefined behaviour. *)
Theorem C27_refuted {V} dim (l : list (triple V)) : 2 <= dim -> coo_to_dense V dim l = UB.
Proof. exact (coo_to_dense_UB V dim l). Qed.
Print Assumptions C27_refuted.

(* C28 *)
Theorem C28_transpose {V} mat dim : length mat = dim * dim ->
  exists out, simple_transpose V mat dim = Ok out /\ length out = dim * dim /\
    forall r c, r < dim -> c < dim -> nth_error out (r * dim + c) = nth_error mat (c * dim + r).
Proof. exact (transpose_spec V mat dim). Qed.
Print Assumptions C28_transpose.
Theorem C28_involutive {V} mat dim : length mat = dim * dim ->
  (do t <- simple_transpose V mat dim; simple_transpose V t dim) = Ok mat.
Proof. exact (transpose_twice V mat dim). Qed.
Print Assumptions C28_involutive.
Example C28_example : simple_transpose Z [1; 2; 3; 4; 5; 6; 7; 8; 9]%Z 3 = Ok [1; 4; 7; 2; 5; 8; 3; 6; 9]%Z.
Proof. reflexivity. Qed.
