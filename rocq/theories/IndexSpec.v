(* Specification for C102: model spaces whose arrays can be indexed with 32-bit integers. *)
From Coq Require Import ZArith.
Open Scope Z_scope.

(* np, nq: wave packets; na: partial-wave states of the channel; nu, nc: uncoupled and coupled pair channels.  Twice the number of
   elements of the stored Hamiltonians, and four numbers per cell of the channel, stay below 2^31. *)
Record sizes_fit (np nq na nu nc : Z) : Prop := mksizes {
  sf_np : 1 <= np; sf_nq : 1 <= nq; sf_na : 1 <= na; sf_nu : 1 <= nu; sf_nc : 0 <= nc;
  sf_H : np * (np + 1) * nu < 2 ^ 31;
  sf_H1 : 2 * np * (2 * np + 1) < 2 ^ 31;
  sf_Hc : 2 * np * (2 * np + 1) * nc < 2 ^ 31;
  sf_cells : 4 * (na * nq * np) < 2 ^ 31 }.
