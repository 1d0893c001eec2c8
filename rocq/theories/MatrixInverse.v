(* A one-sided inverse of a square real matrix is two-sided (through the complex matrices of ComplexField.v). *)
From Coq Require Import Reals.
From Verif Require Import ResolventModel FaddeevModel ComplexField GridSpec PermPropsLemmas.
From mathcomp Require Import all_ssreflect all_algebra.
Set Implicit Arguments. Unset Strict Implicit. Unset Printing Implicit Defensive.
Import GRing.Theory.
Local Open Scope ring_scope.

Definition r2c (x : R) : cx := (x, R0).
Lemma r2c_add x y : r2c (Rplus x y) = r2c x + r2c y.
Proof. by apply: cx_ext; cbn; rewrite ?Rplus_0_r. Qed.
Lemma r2c_mul x y : r2c (Rmult x y) = r2c x * r2c y.
Proof. by apply: cx_ext; cbn; ring. Qed.
Lemma r2c_sum f n : r2c (GridSpec.sum f n) = \sum_(i < n) r2c (f i).
Proof.
elim: n => [|n IH]; first by rewrite big_ord0; apply: cx_ext.
by rewrite sum_S r2c_add IH big_ord_recr.
Qed.
Lemma r2c_inj x y : r2c x = r2c y -> x = y.
Proof. by case. Qed.

Lemma inverse_sides n (B D : nat -> nat -> R) :
  (forall i j, (i < n)%coq_nat -> (j < n)%coq_nat -> GridSpec.sum (fun k => Rmult (B i k) (D k j)) n = if Nat.eqb i j then R1 else R0) ->
  forall i j, (i < n)%coq_nat -> (j < n)%coq_nat -> GridSpec.sum (fun k => Rmult (D i k) (B k j)) n = if Nat.eqb i j then R1 else R0.
Proof.
move=> H i j hi hj.
pose A := \matrix_(i < n, j < n) r2c (B i j). pose E := \matrix_(i < n, j < n) r2c (D i j).
have ide : forall i j : 'I_n, r2c (if Nat.eqb i j then R1 else R0) = (i == j)%:R.
  move=> a b; have -> : (a == b) = Nat.eqb a b.
    by apply/eqP/idP => [->|/PeanoNat.Nat.eqb_eq /val_inj //]; rewrite PeanoNat.Nat.eqb_refl.
  by case: (Nat.eqb a b).
have AE : A *m E = 1%:M.
  apply/matrixP => a b; rewrite !mxE -ide -(H a b); [|exact/ltP|exact/ltP].
  by rewrite r2c_sum; apply: eq_bigr => k _; rewrite !mxE r2c_mul.
have /matrixP EA := mulmx1C AE.
have ltn_i : (i < n)%N by exact/ltP.
have ltn_j : (j < n)%N by exact/ltP.
apply: r2c_inj; have := EA (Ordinal ltn_i) (Ordinal ltn_j); rewrite !mxE -ide /= => <-.
by rewrite r2c_sum; apply: eq_bigr => k _; rewrite !mxE r2c_mul.
Qed.
