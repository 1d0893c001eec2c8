(* Machine integers: the arithmetic with which the program computes array sizes and array indices.  The other models use unbounded
   integers for them; here the expressions are written down as they stand in the code, with the C++ type of every variable, and
   evaluated by the rules of the language (64-bit Linux: int has 32 bits, size_t has 64). *)
From Coq Require Import String.
From Verif Require Import Common.
Open Scope Z_scope.

Inductive cty := I32 | U64.
Inductive cexp := Lit (z : Z) (* an int literal *) | Var (x : string) | Cst (e : cexp) (* (size_t) e *) | Add (a b : cexp) | Sub (a b : cexp) | Mul (a b : cexp) | Div (a b : cexp) | Mod (a b : cexp).
Definition cenv := list (string * (cty * Z)).
Definition ints (l : list (string * Z)) : cenv := map (fun p => (fst p, (I32, snd p))) l.
Definition sizes (l : list (string * Z)) : cenv := map (fun p => (fst p, (U64, snd p))) l.
Fixpoint clookup (G : cenv) (x : string) : outcome (cty * Z) :=
  match G with [] => UB | (y, v) :: G' => if String.eqb x y then Ok v else clookup G' x end.

Definition two32 : Z := 2 ^ 32. Definition two64 : Z := 2 ^ 64.
Definition int_ok (z : Z) : bool := (- 2 ^ 31 <=? z) && (z <? 2 ^ 31).
Definition to_size (v : cty * Z) : Z := match v with (I32, z) => z mod two64 | (U64, z) => z end.
(* C++17 [expr.arith.conv]: two ints give an int, overflow being undefined ([expr.pre] 4); with a size_t on either side both
   operands are converted to size_t and the result is reduced modulo 2^64. *)
Definition carith (f : Z -> Z -> Z) (a b : cty * Z) : outcome (cty * Z) :=
  match a, b with
  | (I32, x), (I32, y) => if int_ok (f x y) then Ok (I32, f x y) else UB
  | _, _ => Ok (U64, f (to_size a) (to_size b) mod two64)
  end.
Definition cdivide (f : Z -> Z -> Z) (a b : cty * Z) : outcome (cty * Z) := if snd b =? 0 then UB else carith f a b.
Fixpoint cval (G : cenv) (e : cexp) : outcome (cty * Z) :=
  match e with
  | Lit z => if int_ok z then Ok (I32, z) else UB
  | Var x => clookup G x
  | Cst a => do v <- cval G a; Ok (U64, to_size v)
  | Add a b => do u <- cval G a; do v <- cval G b; carith Z.add u v
  | Sub a b => do u <- cval G a; do v <- cval G b; carith Z.sub u v
  | Mul a b => do u <- cval G a; do v <- cval G b; carith Z.mul u v
  | Div a b => do u <- cval G a; do v <- cval G b; cdivide Z.quot u v
  | Mod a b => do u <- cval G a; do v <- cval G b; cdivide Z.rem u v
  end.
(* size_t x = e;  (initialising a size_t from an int converts it) *)
Definition as_size (o : outcome (cty * Z)) : outcome Z := do v <- o; Ok (to_size v).

Declare Scope cexp_scope.
Delimit Scope cexp_scope with C.
Notation "a + b" := (Add a b) : cexp_scope. Notation "a - b" := (Sub a b) : cexp_scope.
Notation "a * b" := (Mul a b) : cexp_scope. Notation "a / b" := (Div a b) : cexp_scope. Notation "a 'rem' b" := (Mod a b) (at level 40, left associativity) : cexp_scope.
Open Scope string_scope.
(* variables *)
Definition Np := Var "Np_WP". Definition Nq := Var "Nq_WP". Definition Na := Var "Nalpha".
Definition n_unco := Var "num_2N_unco_states". Definition n_coup := Var "num_2N_coup_states".
Definition chn := Var "chn_idx". Definition bin_r := Var "idx_bin_r". Definition bin_c := Var "idx_bin_c". Definition dim := Var "mat_dim".
Definition alpha := Var "idx_alpha". Definition qbin := Var "idx_q_bin". Definition pbin := Var "idx_p_bin".

(* main.cpp l.291-302: V_unco_array_size, V_coup_array_size; l.380: dense_dim (int product, stored in a size_t) *)
Definition V_unco_size : cexp := (Np * Np * n_unco)%C.
Definition V_coup_size : cexp := (Np * Np * Lit 4 * n_coup)%C.
Definition dense_dim_main : cexp := (Na * Np * Nq)%C.

(* make_potential_matrix.cpp l.252-258 (chn_idx_V_coup, chn_idx_V_unco, bins: int) *)
Definition V_upper_left : cexp := (chn * Lit 4 * Np * Np + bin_r * Lit 2 * Np + bin_c)%C.
Definition V_upper_right : cexp := (chn * Lit 4 * Np * Np + bin_r * Lit 2 * Np + bin_c + Np)%C.
Definition V_lower_left : cexp := (chn * Lit 4 * Np * Np + (bin_r + Np) * Lit 2 * Np + bin_c)%C.
Definition V_lower_right : cexp := (chn * Lit 4 * Np * Np + (bin_r + Np) * Lit 2 * Np + bin_c + Np)%C.
Definition V_uncoupled : cexp := (chn * Np * Np + bin_r * Np + bin_c)%C.

(* make_swp_states.cpp l.294-295 (H sizes), l.386-389 and l.410-413 (offsets), l.54, l.63 (upper triangle), l.66 (element of V) *)
Definition H_unco_size : cexp := (Np * (Np + Lit 1) / Lit 2 * n_unco)%C.
Definition H_coup_size : cexp := (Lit 2 * Np * (Lit 2 * Np + Lit 1) / Lit 2 * n_coup)%C.
Definition H_block : cexp := (chn * dim * (dim + Lit 1) / Lit 2)%C.
Definition V_block : cexp := (chn * dim * dim)%C.
Definition triangle : cexp := (dim * (dim - Lit 1) / Lit 2 - (dim - bin_r) * (dim - bin_r - Lit 1) / Lit 2 + bin_c)%C.
Definition V_element : cexp := (bin_r * dim + bin_c)%C.

(* make_swp_states.cpp l.281-282, l.389, l.413; make_resolvent.cpp l.135-155; run_organizer.cpp l.182-202; disk_io_routines.cpp
   l.520-540: energies of the scattering states *)
Definition e_unco_size : cexp := ((Np + Lit 1) * n_unco)%C.
Definition e_coup_size : cexp := (Lit 2 * (Np + Lit 1) * n_coup)%C.
Definition e_unco : cexp := (chn * (Np + Lit 1))%C.
Definition e_coup_1 : cexp := (chn * Lit 2 * (Np + Lit 1))%C.
Definition e_coup_2 : cexp := (chn * Lit 2 * (Np + Lit 1) + Np + Lit 1)%C.

(* make_resolvent.cpp l.201 (int) *)
Definition G_cell : cexp := (alpha * Nq * Np + qbin * Np + pbin)%C.
(* run_organizer.cpp l.144, l.217-221 (int) *)
Definition bounds_size : cexp := (Lit 4 * Na * Np * Nq)%C.
Definition bounds_cell : cexp := (alpha * Np * Nq + qbin * Np + pbin)%C.
Definition bounds_entry (k : Z) : cexp := (Lit 4 * Var "idx" + Lit k)%C.

(* make_permutation_matrix.cpp l.506 (num_WP_cells), l.516 (Nq, Np, Nphi: int), l.616 (P123_dense_dim: int product),
   l.818-826 (row and column of P123: indices size_t, dimensions int) *)
Definition WP_cells : cexp := (Cst Nq * Nq * Np * Np)%C.
Definition phi_size : cexp := (Nq * Np * Var "Nphi")%C.
Definition P123_dim : cexp := (Np * Nq * Na)%C.
Definition P123_row : cexp := (alpha * Nq * Np + qbin * Np + pbin)%C.

(* solve_faddeev.cpp l.1621, l.1645 (idx_chn int, Np_WP size_t), l.1717-1745 (all size_t) *)
Definition CT_unco : cexp := (chn * Np * Np)%C.
Definition CT_coup : cexp := (chn * Lit 4 * Np * Np)%C.
Definition CT_quarter (k : Z) : cexp := (Var "idx_2N_mat_WP_coup" + Lit k * Np * Np)%C.
(* solve_faddeev.cpp l.635-637, l.1047-1049: (alpha, q, p) of a column *)
Definition col_alpha : cexp := (Var "idx_col" / (Np * Nq))%C.
Definition col_q : cexp := (Var "idx_col" rem (Np * Nq) / Np)%C.
Definition col_p : cexp := (Var "idx_col" rem Np)%C.
(* solve_faddeev.cpp l.424, l.824, l.854: elastic amplitude; disk_io_routines.cpp l.893 reads the same cell *)
Definition U_cell : cexp := (Var "idx_d_row" * Var "num_deuteron_states" * Var "num_q_com" + Var "idx_d_col" * Var "num_q_com" + Var "idx_q_com")%C.

(* make_permutation_matrix.cpp, the tables of one channel.  Np_WP, Nq_WP, Nphi, Nx, x_idx: int; qp_idx_WP, pp_idx_WP, q_idx_WP, p_idx_WP,
   phi_idx and the length len of one set of Legendre functions: size_t.
   l.180, l.199, l.557 (angles), l.536-538 (sizes of the Legendre tables), l.585-588 (where a set is written), l.653, l.783-784
   (where the tables of a pair of bins start); l.126-128: phi_idx and x_idx are 64-bit signed integers there, which never are
   negative: modelled as size_t; l.241-247, l.794-800 (number of a pair of cells) *)
Definition qp := Var "qp_idx_WP". Definition pp := Var "pp_idx_WP". Definition Nphi := Var "Nphi". Definition Nx := Var "Nx".
Definition phi_i := Var "phi_idx". Definition x_i := Var "x_idx". Definition len := Var "len".
Definition phi_entry : cexp := ((qp * Np + pp) * Nphi + phi_i)%C.
Definition Plm_1_size : cexp := (len * Nx)%C.
Definition Plm_2_size : cexp := (len * Np * Nq * Nphi * Nx)%C.
Definition Plm_1_entry : cexp := (Var "idx_subarray_1" * len)%C.
Definition Plm_2_set : cexp := (qp * Np * Nphi * Nx + pp * Nphi * Nx + phi_i * Nx + x_i)%C.
Definition Plm_2_entry : cexp := (Var "idx_subarray_2" * len)%C.
Definition Plm_2_start : cexp := ((qp * Np * Nphi * Nx + pp * Nphi * Nx) * len)%C.
Definition Plm_2_inner : cexp := ((phi_i * Nx + x_i) * len)%C.
Definition G_size : cexp := (Nphi * Nx)%C.
Definition G_entry : cexp := (phi_i * Nx + x_i)%C.
Definition step_1 : cexp := (Cst Np * Nq * Np)%C.
Definition step_2 : cexp := (Cst Nq * Np)%C.
Definition step_3 : cexp := Cst Np.
Definition pair_cell : cexp := (Cst qp * Var "step_length_1" + pp * Var "step_length_2" + qbin * Var "step_length_3" + pbin)%C.
