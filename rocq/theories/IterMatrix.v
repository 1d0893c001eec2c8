(* The Born series of the scattering equation (C93). *)
From Coq Require Import Reals.
From Verif Require Import Common ArrayLib SwpModel ResolventModel GridSpec FaddeevModel FaddeevSpec PermPropsLemmas DetModel DenseModel PadeSpec PadeLists ComplexField
  DetProofs PadeAlgebra PadeLink DensePadeLink MatrixInverse AgsSpec AgsMatrix.
From mathcomp Require Import all_ssreflect all_algebra zify.
Set Implicit Arguments. Unset Strict Implicit. Unset Printing Implicit Defensive.
Import GRing.Theory.
Local Open Scope ring_scope.

Section Series.
Variables (D' : nat) (K : nat -> nat -> R) (Rs T : nat -> nat -> cdouble).
Let D := D'.+1.
Let Kx : 'M[cx]_D := mxf D (fun r c => rc (K r c)).
Let Rx : 'M[cx]_D := mxf D Rs.
Let Tx : 'M[cx]_D := mxf D T.
Let B n : 'M[cx]_D := mxf D (born_term D K Rs n).
Lemma BS n : B n.+1 = B n *m Rx *m Kx.
Proof.
apply/matrixP => x y; rewrite [LHS]mxE.
rewrite [LHS](_ : _ = ctotal (fun z => cmul (ctotal (fun t => cmul (born_term D K Rs n x t) (Rs t z)) D) (rc (K z y))) D) //.
rewrite [LHS]ctotalE [RHS]mxE; apply: eq_bigr => z _.
rewrite -cx_mulE [X in _ = _ * X]mxE; congr (_ * _); rewrite ctotalE mxE; apply: eq_bigr => t _; by rewrite !mxE.
Qed.
Hypothesis HT : ags_solution D K Rs T.
Lemma solM : Tx = Kx + Kx *m (Rx *m Tx).
Proof.
apply/matrixP => x y; rewrite [LHS]mxE HT; [|exact/ltP|exact/ltP].
rewrite [RHS]mxE [X in _ = X + _]mxE [X in _ = _ + X]mxE ctotalE; congr (_ + _); apply: eq_bigr => z _; rewrite -cx_mulE !mxE; congr (_ * _).
by rewrite ctotalE; apply: eq_bigr => t _; rewrite !mxE.
Qed.
Lemma seriesM n : Tx = \sum_(m < n.+1) B m + B n *m Rx *m Tx.
Proof.
elim: n => [|n IH].
  rewrite big_ord_recl big_ord0 addr0 -mulmxA; have -> : B 0 = Kx by apply/matrixP => x y; rewrite !mxE.
  exact: solM.
have e : B n *m Rx *m Tx = B n.+1 + B n.+1 *m Rx *m Tx by rewrite {1}solM mulmxDr BS !mulmxA.
rewrite big_ord_recr /= -addrA -e; exact: IH.
Qed.
Lemma series_at n x y : (x < D)%coq_nat -> (y < D)%coq_nat ->
  T x y = cadd (ctotal (fun m => born_term D K Rs m x y) n.+1) (ctotal (fun z => cmul (ctotal (fun t => cmul (born_term D K Rs n x t) (Rs t z)) D) (T z y)) D).
Proof.
move=> /ltP hx /ltP hy; have := congr1 (fun M : 'M_D => M (Ordinal hx) (Ordinal hy)) (seriesM n).
have -> : Tx (Ordinal hx) (Ordinal hy) = T x y by rewrite mxE.
have -> : (\sum_(m < n.+1) B m + B n *m Rx *m Tx) (Ordinal hx) (Ordinal hy) = (\sum_(m < n.+1) B m) (Ordinal hx) (Ordinal hy) + (B n *m Rx *m Tx) (Ordinal hx) (Ordinal hy) by rewrite mxE.
have -> : (\sum_(m < n.+1) B m) (Ordinal hx) (Ordinal hy) = ctotal (fun m => born_term D K Rs m x y) n.+1.
  by rewrite summxE [RHS]ctotalE; apply: eq_bigr => m _; rewrite mxE.
have -> : (B n *m Rx *m Tx) (Ordinal hx) (Ordinal hy) = ctotal (fun z => cmul (ctotal (fun t => cmul (born_term D K Rs n x t) (Rs t z)) D) (T z y)) D.
  rewrite mxE [RHS]ctotalE; apply: eq_bigr => z _; rewrite -cx_mulE [X in _ * X = _]mxE; congr (_ * _).
  by rewrite mxE ctotalE; apply: eq_bigr => t _; rewrite !mxE.
by [].
Qed.
End Series.
Lemma born_series D K Rs T n x y : ags_solution D K Rs T -> (x < D)%coq_nat -> (y < D)%coq_nat ->
  T x y = cadd (ctotal (fun m => born_term D K Rs m x y) n.+1) (ctotal (fun z => cmul (ctotal (fun t => cmul (born_term D K Rs n x t) (Rs t z)) D) (T z y)) D).
Proof. case: D => [|D'] hT hx hy; [by move/ltP: hx | exact: series_at]. Qed.
