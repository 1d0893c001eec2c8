(* Specifications for the three-nucleon kernel (C38, C39), independent of the code's loops, pointers and blocks. *)
From Coq Require Import Reals.
From Verif Require Import Common PWModel PWSpec GridSpec PotentialSpec KernelModel.
Open Scope nat_scope.

(* A state of the wave-packet basis of one channel: partial wave, q bin, p bin. *)
Definition state3 := (nat * nat * nat)%type.
Definition valid3 (N Nq Np : nat) (x : state3) : Prop :=
  let '(a, q, p) := x in a < N /\ q < Nq /\ p < Np.
(* its number in the basis *)
Definition idx3 (Nq Np : nat) (x : state3) : nat := let '(a, q, p) := x in (a * Nq + q) * Np + p.
(* sum over the whole basis *)
Definition sum3 (N Nq Np : nat) (f : state3 -> R) : R :=
  sum (fun a => sum (fun q => sum (fun p => f (a, q, p)) Np) Nq) N.

(* Can a two-nucleon force connect the two partial waves?  It conserves S, J, T of the pair and the parity, does not
   touch the spectator (l, j), and changes L only through the tensor force. *)
Definition connects (tensor : bool) (r c : pw) : bool :=
  ((S_2N r =? S_2N c) && (J_2N r =? J_2N c) && (T_2N r =? T_2N c) &&
   ((L_2N r =? L_2N c) || (tensor && Z.even (L_2N r + L_2N c))) &&
   (L_1N r =? L_1N c) && (two_J_1N r =? two_J_1N c))%Z%bool.

(* Element of a set of two-nucleon matrices (uncoupled, coupled), see [entry] in PotentialSpec. *)
Definition elem2 (tensor iso : bool) (Np : nat) (M : list R * list R) (r c : pw) (i j : nat) : R :=
  match entry tensor iso Np M r c i j with Some v => v | None => 0%R end.
(* The three-nucleon operator of a set of two-nucleon matrices: diagonal in q, block by block in the partial waves. *)
Definition dummy_pw : pw := mkpw 0 0 0 0 0 0 0 0 0.
Definition op3 (tensor iso : bool) (Np : nat) (states : list pw) (M : list R * list R) (x y : state3) : R :=
  let '(a, q, p) := x in let '(a', q', p') := y in
  if (q =? q') && connects tensor (nth a states dummy_pw) (nth a' states dummy_pw)
  then elem2 tensor iso Np M (nth a states dummy_pw) (nth a' states dummy_pw) p p' else 0%R.

(* The matrix a compressed-column triple stands for *)
Definition csc_elem (P : csc) (i j : nat) : R :=
  sum (fun k => if (nth j (c_col P) 0 <=? k) && (k <? nth (S j) (c_col P) 0) && (nth k (c_row P) 0 =? i)
                then nth k (c_val P) 0%R else 0%R) (length (c_val P)).
Definition csc_ok (D : nat) (P : csc) : Prop :=
  length (c_row P) = length (c_val P) /\ length (c_col P) = D + 1 /\
  (forall k, k < length (c_row P) -> nth k (c_row P) 0 < D) /\
  (forall j, j < D -> nth j (c_col P) 0 <= nth (S j) (c_col P) 0 <= length (c_val P)).

(* Element (x, y) of  C^T (2 P123) V C *)
Definition kernel (N Nq Np : nat) (C3 V3 : state3 -> state3 -> R) (P : csc) (x y : state3) : R :=
  sum3 N Nq Np (fun i => sum3 N Nq Np (fun j =>
    (C3 i x * (2 * csc_elem P (idx3 Nq Np i) (idx3 Nq Np j)) * sum3 N Nq Np (fun k => V3 j k * C3 k y))%R)).

(* array sizes of a set of two-nucleon matrices *)
Definition mats_ok (tensor iso : bool) (J_2N_max : Z) (Np : nat) (M : list R * list R) : Prop :=
  length (fst M) = Z.to_nat (num_2N_unco_states tensor iso J_2N_max) * (Np * Np) /\
  length (snd M) = Z.to_nat (num_2N_coup_states tensor iso J_2N_max) * (2 * Np * (2 * Np)).
(* element (x, y) of block (a, b) of an operator given by its table of block pointers; a NULL block is zero *)
Definition block_elem (o : kop) (N Np a b x y : nat) : outcome R :=
  do p <- ArrayLib.aread (k_ptr o) (a * N + b);
  match p with None => Ok 0%R | Some _ => kread o p (x * Np + y) end.

(* The matrix a list of (row, column, value) stands for *)
Definition coo_elem (l : list (nat * nat * R)) (i j : nat) : R :=
  fold_right (fun e acc => let '(r, c, v) := e in if (r =? i) && (c =? j) then (v + acc)%R else acc) 0%R l.
