(* General_functions/matrix_routines.cpp (dense/sparse storage routines), General_functions/templates.h. *)
From Coq Require Import Permutation Sorted.
From Verif Require Import Common ArrayLib.
Open Scope nat_scope.

Section Sparse.
Variable V : Type.                       (* matrix values (double) *)
Variable zero : V.
Variable is_zero : V -> bool.            (* x == 0 *)

(* simple_transpose_matrix_routine l.103-117. The temporary array starts uninitialised (None). *)
Definition simple_transpose (mat : list V) (dim : nat) : outcome (list V) :=
  do tmp <- ofold (fun t rc => do v <- aread mat (fst rc * dim + snd rc);
                               awrite t (snd rc * dim + fst rc) (Some v))
                  (nest dim dim) (repeat None (dim * dim));
  all_init tmp.

(* A COO triple (the code keeps three parallel arrays row, col, val of the same length). *)
Definition triple := (nat * nat * V)%type.
Definition trow (t : triple) := fst (fst t).
Definition tcol (t : triple) := snd (fst t).
Definition tval (t : triple) := snd t.

(* square_dense_to_sparse_COO_format_converter l.119-166: index pass, then value pass.
   (mat_dim*mat_dim is an int product: the model has no overflow.) *)
Definition nonzero_idx (dim : nat) (mat : list V) : outcome (list (nat * nat)) :=
  ofold (fun acc ij => do v <- aread mat (fst ij * dim + snd ij);
                       Ok (if is_zero v then acc else acc ++ [ij]))
        (nest dim dim) [].
Definition dense_to_coo (dim : nat) (mat : list V) : outcome (list triple) :=
  do idx <- nonzero_idx dim mat;
  ofold (fun acc rc => do v <- aread mat (fst rc * dim + snd rc); Ok (acc ++ [(rc, v)])) idx [].

(* square_sparse_COO_to_dense_format_converter l.168-193 as written: the "zero fill" assigns 0 to
   mat_dense_array[i] (the array of POINTERS, of which the caller owns one), so slot 0 becomes the null
   pointer and slots 1..dim-1 are outside; then the elements are written through the null pointer. *)
Definition coo_to_dense (dim : nat) (l : list triple) : outcome (list (option V)) :=
  do p <- ofold (fun p i => match i with
                            | 0 => Ok None              (* *mat_dense_array = nullptr *)
                            | S _ => UB                 (* write past the caller's pointer *)
                            end) (seq 0 dim) (Some (repeat (@None V) (dim * dim)));
  match p, l with
  | None, _ :: _ => UB                                   (* write through the null pointer *)
  | None, [] => Ok []                                    (* the caller is left with a null pointer *)
  | Some a, _ => ofold (fun a t => awrite a (trow t * dim + tcol t) (Some (tval t))) l a
  end.

(* What it was meant to do: zero-fill the new array. *)
Definition coo_to_dense_intended (dim : nat) (l : list triple) : outcome (list V) :=
  ofold (fun a t => awrite a (trow t * dim + tcol t) (tval t)) l (repeat zero (dim * dim)).
End Sparse.

(* coo_to_csr_format_converter l.197-219 and coo_to_csc_format_converter l.223-244 (same text).
   Inner loop: from j = offset of the previous row, count entries until one exceeds [b]. *)
Fixpoint count_until (b : nat) (l : list nat) : nat :=
  match l with
  | [] => 0
  | x :: r => if b <? x then 0 else S (count_until b r)
  end.
(* Offsets for rows i, i+1, ..., i+k-1 (each entry is the END of the row), given the previous offset. *)
Fixpoint csr_offsets (coo : list nat) (k i prev : nat) : list nat :=
  match k with
  | 0 => []
  | S k' => let o := count_until i (skipn prev coo) + prev in o :: csr_offsets coo k' (S i) o
  end.
Definition coo_to_csr (coo : list nat) (dense_dim : nat) : list nat := 0 :: csr_offsets coo dense_dim 0 0.

(* unsorted_sparse_to_coo_{row,col}_major_sorter l.246-326: key in size_t (mod 2^64), then
   sort_indexes (templates.h l.9: std::sort of the index vector by key), then three gathers.
   [sorted_indices] is whatever std::sort returned. *)
Definition key (dim : nat) (major minor : nat) : Z :=
  ((Z.of_nat major * Z.of_nat dim + Z.of_nat minor) mod 2 ^ 64)%Z.
Definition keys_row_major (dim : nat) (rows cols : list nat) : list Z :=
  map (fun rc => key dim (fst rc) (snd rc)) (combine rows cols).
Definition keys_col_major (dim : nat) (rows cols : list nat) : list Z :=
  map (fun rc => key dim (snd rc) (fst rc)) (combine rows cols).
Fixpoint gather {A} (a : list A) (idx : list nat) : outcome (list A) :=
  match idx with
  | [] => Ok []
  | i :: r => do v <- aread a i; do r' <- gather a r; Ok (v :: r')
  end.
(* The contract of std::sort over the indices 0..n-1 with comparison keys[a] < keys[b]. *)
Definition sort_indexes_contract (keys : list Z) (idx : list nat) : Prop :=
  Permutation idx (seq 0 (length keys)) /\
  StronglySorted (fun a b => (nth a keys 0 <= nth b keys 0)%Z) idx.
(* The three arrays are gathered separately, one after the other. *)
Definition apply_sort {V} (rows cols : list nat) (vals : list V) (sorted_indices : list nat)
  : outcome (list nat * list nat * list V) :=
  do r <- gather rows sorted_indices;
  do c <- gather cols sorted_indices;
  do v <- gather vals sorted_indices;
  Ok (r, c, v).
