(* Specification of the assembled permutation matrix (C72). *)
From Coq Require Import Reals.
From Verif Require Import Common.
Open Scope R_scope.

(* the matrix a list of (row, column, value) stands for *)
Definition entry (l : list (Z * Z * R)) (row col : Z) : R :=
  fold_right (fun e s => let '(r, c, v) := e in if (r =? row)%Z && (c =? col)%Z then v + s else s) 0 l.
