(* determinant() against the textbook definition by expansion along the first row (C62). *)
From Coq Require Import Reals List.
From Verif Require FaddeevPadeProofs.
From Verif Require Import Common ResolventModel FaddeevModel DetModel DenseModel PadeSpec ComplexField DetProofs PadeLink.
From mathcomp Require Import all_ssreflect all_fingroup all_algebra zify.
Set Implicit Arguments. Unset Strict Implicit. Unset Printing Implicit Defensive.
Import GRing.Theory.
Local Open Scope ring_scope.

Lemma laplaceE n f : laplace n f = \det (mxf n f).
Proof.
elim: n f => [|n IH] f; first by rewrite det_mx00.
rewrite [LHS]/laplace -/laplace ctotalE (expand_det_row _ ord0); apply: eq_bigr => j _.
rewrite IH /cofactor !mxE /= add0n.
have -> : row' ord0 (col' j (mxf n.+1 f)) = mxf n (fun r c => f (S r) (if Nat.ltb c j then c else S c)).
  apply/matrixP => r c; rewrite !mxE; congr (f _ _) => //.
  by rewrite ltbE /= /bump; case: ltnP.
have -> : cpow (copp c1) j = (-1) ^+ j :> cx by rewrite cx_powE.
by rewrite -!cx_mulE mulrCA.
Qed.
Lemma determinant_laplace getrf A n : getrf_contract getrf ->
  DetModel.determinant getrf A n = laplace n (fun r c => List.nth (r * n + c)%coq_nat A c0).
Proof. by move=> h; rewrite determinant_ok // laplaceE. Qed.
(* a matrix is regular exactly when this determinant is not zero *)
Lemma regular_laplace n f : laplace n f <> c0 <-> regular n f.
Proof. by rewrite laplaceE regularE; split=> [h|/eqP]; [ apply/eqP | ]. Qed.
(* a regular system has a solution *)
Lemma regular_solvable n L R : regular n L -> exists X : nat -> nat -> cdouble, forall i j, (i < n)%coq_nat -> (j < n)%coq_nat ->
  ctotal (fun k => cmul (L i k) (X k j)) n = R i j.
Proof.
case: n => [_|n /regularE hd]; first by exists (fun _ _ => c0) => i j /ltP.
have hu : mxf n.+1 L \in unitmx by rewrite unitmxE unitfE.
pose S : 'M[cx]_n.+1 := invmx (mxf n.+1 L) *m mxf n.+1 R.
exists (fun r k => S (inord r) (inord k)) => i j /ltP hi /ltP hj.
have e : (mxf n.+1 L *m S) (Ordinal hi) (Ordinal hj) = R i j by rewrite /S mulKVmx // mxE.
rewrite -e mxE ctotalE; apply: eq_bigr => k _.
have -> : inord j = Ordinal hj by apply: val_inj; rewrite /= inordK.
by rewrite inord_val [mxf _ _ _ _]mxE.
Qed.
(* pade_approximant computes the ratio of the two determinants *)
Lemma pade_laplace a M z getrf : getrf_contract getrf -> FaddeevPadeProofs.pade_val (DetModel.determinant getrf) a M z = approximant a M z.
Proof. by move=> h; rewrite pade_det // /approximant !laplaceE PeanoNat.Nat.add_1_r Pmx_code Qmx_code. Qed.
