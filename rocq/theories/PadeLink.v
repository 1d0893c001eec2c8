(* From the code's lists to matrices over the complex field. *)
From Coq Require Import Reals.
From Verif Require Import Common ArrayLib SwpModel ResolventModel FaddeevModel FaddeevPadeProofs DetModel DenseModel PadeSpec PadeLists ComplexField DetProofs PadeAlgebra.
From mathcomp Require Import all_ssreflect all_algebra zify.
Set Implicit Arguments. Unset Strict Implicit. Unset Printing Implicit Defensive.
Import GRing.Theory.
Local Open Scope ring_scope.

Definition vecf n (y : nat -> cdouble) : 'cV[cx]_n := \col_i (y i : cx).
Lemma mulf n (L : nat -> nat -> cdouble) y (i : 'I_n) : (mxf n L *m vecf n y) i 0 = ctotal (fun k => cmul (L i k) (y k)) n.
Proof. by rewrite ctotalE mxE; apply: eq_bigr => k _; rewrite !mxE. Qed.
(* regular = non-zero determinant *)
Lemma regularE n (L : nat -> nat -> cdouble) : regular n L <-> \det (mxf n L) != 0.
Proof.
split=> h.
  rewrite -det_tr; apply/det0P => - [v hv hL]; case/negP: hv; apply/eqP/rowP => j; rewrite [RHS]mxE.
  pose y k : cdouble := if insub k is Some i then v 0 i else c0.
  have hy : vecf n y = v^T by apply/colP => k; rewrite !mxE /y valK.
  have -> : v 0 j = y j by rewrite /y valK.
  apply: (h y) => [k /ltP hk|]; last by apply/ltP.
  have -> : k = Ordinal hk by []; rewrite -mulf hy.
  by have := congr1 (fun X => X^T (Ordinal hk) 0) hL; rewrite trmx_mul trmxK => ->; rewrite !mxE.
move=> y hy i /ltP hi; have hz : mxf n L *m vecf n y = 0.
  by apply/colP => k; rewrite mulf hy ?mxE //; apply/ltP.
have hv : vecf n y = 0.
  have hu : mxf n L \in unitmx by rewrite unitmxE unitfE.
  by rewrite -[vecf n y](mulKmx hu) hz mulmx0.
by have := congr1 (fun X : 'cV_n => X (Ordinal hi) 0) hv; rewrite !mxE.
Qed.

Section Code.
Variables (a : nat -> cdouble) (z : cdouble) (M : nat).
Lemma ltbE (i j : nat) : Nat.ltb i j = (i < j)%N.
Proof. by apply/idP/idP => [/PeanoNat.Nat.ltb_spec0 h|h]; [ apply/ltP | apply/PeanoNat.Nat.ltb_spec0/ltP ]. Qed.
Lemma Qmx_code : mxf (M.+1) (denominator a M z) = Qmx (a : nat -> cx) (z : cx) M.
Proof.
apply/matrixP => i j; rewrite !mxE /denominator ltbE; case: (i < M)%N; last by rewrite cx_powE.
by congr (a _); lia.
Qed.
Lemma Pmx_code : mxf (M.+1) (numerator a M z) = Pmx (a : nat -> cx) (z : cx) M.
Proof.
apply/matrixP => i j; rewrite !mxE /numerator ltbE; case: (i < M)%N; first by congr (a _); lia.
have hj : (j <= M)%N by rewrite -ltnS.
rewrite ctotalE; set m := (M - j)%N.
rewrite -{1}[m]add0n big_addn /m.
have -> : (M.+1 - (M - j) = (j + 1)%coq_nat)%N by lia.
rewrite big_mkord; apply: eq_bigr => k _; rewrite cx_powE addnK.
by congr (cmul _ (cpow _ _)); lia.
Qed.
Lemma mxl_Q : mxl (M + 1)%coq_nat (mxQ a M z) = mxf (M + 1)%coq_nat (denominator a M z).
Proof.
apply/matrixP => i j; rewrite !mxE nth_Q //; have := ltn_ord i; have := ltn_ord j; lia.
Qed.
Lemma mxl_P : mxl (M + 1)%coq_nat (mxP a M z) = mxf (M + 1)%coq_nat (numerator a M z).
Proof.
apply/matrixP => i j; rewrite !mxE nth_P //; have := ltn_ord i; have := ltn_ord j; lia.
Qed.
Variable getrf : getrf_t.
Hypothesis Hgetrf : getrf_contract getrf.
Lemma det_Q : DetModel.determinant getrf (mxQ a M z) (M + 1)%coq_nat = \det (Qmx (a : nat -> cx) (z : cx) M).
Proof. by rewrite determinant_ok // mxl_Q PeanoNat.Nat.add_1_r Qmx_code. Qed.
Lemma det_P : DetModel.determinant getrf (mxP a M z) (M + 1)%coq_nat = \det (Pmx (a : nat -> cx) (z : cx) M).
Proof. by rewrite determinant_ok // mxl_P PeanoNat.Nat.add_1_r Pmx_code. Qed.
Lemma pade_det : pade_val (DetModel.determinant getrf) a M z = \det (Pmx (a : nat -> cx) (z : cx) M) / \det (Qmx (a : nat -> cx) (z : cx) M).
Proof. by rewrite pade_val_mx det_P det_Q. Qed.
Lemma regular_Q : regular (M + 1)%coq_nat (denominator a M z) <-> \det (Qmx (a : nat -> cx) (z : cx) M) != 0.
Proof. by rewrite regularE PeanoNat.Nat.add_1_r Qmx_code. Qed.

(* C42 *)
Lemma rational_exact p q (rd : nat -> outcome cdouble) : rational_series a p q M ->
  (forall k, (k <= 2 * M)%coq_nat -> rd k = Ok (a k)) -> regular (M + 1)%coq_nat (denominator a M z) ->
  poly_at q M z <> c0 /\ pade_approximant (DetModel.determinant getrf) rd M M z = Ok (cdiv (poly_at p M z) (poly_at q M z)).
Proof.
move=> [[i0 [hi0 hq0]] [hpq hs]] hrd /regular_Q hQ.
rewrite (pade_reads _ _ a) // pade_det.
have hc k : (k <= M + M)%N -> conv (a : nat -> cx) (q : nat -> cx) k = p k.
  move=> hk; rewrite -hs; last by lia.
  by rewrite ctotalE PeanoNat.Nat.add_1_r.
have qM i : (M < i)%N -> (q i : cx) = 0 by move=> h; case: (hpq i) => //; apply/ltP.
have van k : (M < k <= M + M)%N -> conv (a : nat -> cx) (q : nat -> cx) k = 0.
  by move=> /andP[h1 h2]; rewrite hc //; case: (hpq k) => //; apply/ltP.
have [|h1 ->] := @pade_exact cx_fieldType a z M q qM van _ hQ; first by exists i0; apply/eqP.
have e1 : poly_at q M z = qval (z : cx) M (q : nat -> cx).
  by rewrite /poly_at ctotalE PeanoNat.Nat.add_1_r; apply: eq_bigr => i _; rewrite cx_powE.
have e2 : poly_at p M z = pval (a : nat -> cx) (z : cx) M (q : nat -> cx).
  rewrite /poly_at ctotalE PeanoNat.Nat.add_1_r; apply: eq_bigr => i _; rewrite cx_powE hc //.
  by have := ltn_ord i; lia.
by rewrite e1 e2; split; [ move=> h; move/eqP: h1; apply | ].
Qed.
End Code.
