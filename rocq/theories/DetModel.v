(* General_functions/matrix_routines.cpp l.82-100: determinant(), and what LAPACKE_zgetrf leaves in its arguments. *)
From Coq Require Import Reals List Arith.
From Verif Require Import Common ResolventModel FaddeevModel.
Import ListNotations.
Open Scope nat_scope.

(* [getrf A n] is the pair (A, ipiv) after LAPACKE_zgetrf(LAPACK_ROW_MAJOR, n, n, A, n, ipiv). *)
Definition getrf_t := list cdouble -> nat -> list cdouble * list nat.
(* l.89-97, the product over the diagonal *)
Definition diag_product (LU : list cdouble) (ipiv : list nat) (n : nat) : cdouble :=
  fold_left (fun acc i => if negb (nth i ipiv 0 =? i + 1) then cmul acc (copp (nth (i * n + i) LU c0))
                          else cmul acc (nth (i * n + i) LU c0)) (seq 0 n) c1.
(* l.82-100 *)
Definition determinant (getrf : getrf_t) (A : list cdouble) (n : nat) : cdouble :=
  let (LU, ipiv) := getrf A n in diag_product LU ipiv n.

(* LAPACK's contract: interchanging rows i and ipiv[i]-1 of A for i = 0, 1, ..., n-1 in turn gives the product of the
   unit lower triangle and the upper triangle that overwrite A; ipiv[i] is one of i+1 .. n. *)
Definition swapped (i j : nat) (f : nat -> nat -> cdouble) (r c : nat) : cdouble :=
  f (if r =? i then j else if r =? j then i else r) c.
Definition interchanged (n : nat) (ipiv : list nat) (f : nat -> nat -> cdouble) : nat -> nat -> cdouble :=
  fold_left (fun f i => swapped i (nth i ipiv 0 - 1) f) (seq 0 n) f.
Definition lower (n : nat) (LU : list cdouble) (i j : nat) : cdouble :=
  if j <? i then nth (i * n + j) LU c0 else if j =? i then c1 else c0.
Definition upper (n : nat) (LU : list cdouble) (i j : nat) : cdouble :=
  if i <=? j then nth (i * n + j) LU c0 else c0.
Fixpoint ctotal (f : nat -> cdouble) (n : nat) : cdouble := match n with O => c0 | S m => cadd (ctotal f m) (f m) end.
Definition getrf_ok (n : nat) (A LU : list cdouble) (ipiv : list nat) : Prop :=
  (forall i, i < n -> i + 1 <= nth i ipiv 0 <= n) /\
  (forall i j, i < n -> j < n ->
     interchanged n ipiv (fun r c => nth (r * n + c) A c0) i j = ctotal (fun k => cmul (lower n LU i k) (upper n LU k j)) n).
Definition getrf_contract (getrf : getrf_t) : Prop := forall A n, getrf_ok n A (fst (getrf A n)) (snd (getrf A n)).
