(* The Neumann terms as powers of a matrix; the Pade approximant and the direct solution (C43, C60). *)
From Coq Require Import Reals.
From Verif Require Import Common ArrayLib PWModel SwpModel ResolventModel GridSpec KernelModel KernelSpec FaddeevModel FaddeevSpec FaddeevPadeProofs FaddeevSolveProofs
  PermPropsLemmas DetModel DenseModel DenseProofs PadeSpec PadeLists ComplexField DetProofs PadeAlgebra PadeLink.
From mathcomp Require Import all_ssreflect all_algebra zify.
Set Implicit Arguments. Unset Strict Implicit. Unset Printing Implicit Defensive.
Import GRing.Theory.
Local Open Scope ring_scope.

Lemma csumE f n : csum f n = ctotal f n.
Proof. by elim: n => [|n IH] //=; rewrite -IH /csum !PermPropsLemmas.sum_S. Qed.

Section Mx.
Variables (n' : nat) (A : nat -> nat -> R) (G : nat -> cdouble).
Let n := n'.+1.
Definition Amx : 'M[cx]_n := mxf n (fun r c => rc (A r c)).
Definition Kmx : 'M[cx]_n := mxf n (fun r c => cmul (rc (A r c)) (G c)).
Lemma neumannE k (x c : 'I_n) : neumann n A G k x c = (Kmx ^+ k *m Amx) x c.
Proof.
elim: k x c => [|k IH] x c; first by rewrite expr0 mul1mx !mxE.
rewrite [LHS]csumE ctotalE exprSr -mulmxA.
have -> : Kmx ^+ k *m (Kmx *m Amx) = (Kmx ^+ k *m Amx) *m (diag_mx (\row_j (G j : cx)) *m Amx).
  rewrite -mulmxA; congr (_ *m _); rewrite mulmxA; congr (_ *m _).
  apply/matrixP => i j; rewrite [RHS]mxE (bigD1 j) //= big1 ?addr0; last by move=> l hl; rewrite !mxE (negbTE hl) mulr0n mulr0.
  by rewrite !mxE eqxx mulr1n.
rewrite [RHS]mxE; apply: eq_bigr => i _.
transitivity ((neumann n A G k x i : cx) * ((G i : cx) * (rc (A i c) : cx))); first exact: esym (mulrA (neumann n A G k x i : cx) _ _).
have -> : (diag_mx (\row_j (G j : cx)) *m Amx) i c = (G i : cx) * (rc (A i c) : cx).
  rewrite [LHS]mxE (bigD1 i) //= big1 ?addr0; last by move=> l hl; rewrite !mxE eq_sym (negbTE hl) mulr0n mul0r.
  by rewrite !mxE eqxx mulr1n.
by rewrite IH.
Qed.
Lemma KX X (r c : 'I_n) : (Kmx *m mxf n X) r c = ctotal (fun i => cmul (cmul (rc (A r i)) (G i)) (X i c)) n.
Proof. by rewrite mxE ctotalE; apply: eq_bigr => i _; rewrite !mxE. Qed.
Lemma solutionE X : faddeev_solution n A G X <-> (1%:M - Kmx) *m mxf n X = Amx.
Proof.
rewrite mulmxBl mul1mx; split=> h.
  apply/eqP; rewrite subr_eq; apply/eqP/matrixP => r c; rewrite [LHS]mxE [RHS]mxE KX [X in X + _]mxE.
  by apply: h; apply/ltP.
move/eqP: h; rewrite subr_eq => /eqP h r c /ltP hr /ltP hc.
have := congr1 (fun Y : 'M_n => Y (Ordinal hr) (Ordinal hc)) h.
by rewrite [LHS]mxE [RHS]mxE KX [X in X + _]mxE.
Qed.
(* the matrix the direct solver builds: 1 - A G, whatever the order of the two terms *)
Definition Lf (r c : nat) : cdouble := cadd (copp (cmul (rc (A r c)) (G c))) (delta r c).
Lemma LfE : mxf n Lf = 1%:M - Kmx.
Proof.
apply/matrixP => i j; rewrite !mxE /Lf /delta.
have -> : (Nat.eqb i j) = (i == j).
  by apply/idP/idP => [/PeanoNat.Nat.eqb_spec h|/eqP ->]; [ apply/eqP/val_inj | apply: PeanoNat.Nat.eqb_refl ].
by rewrite -cx_addE addrC; case: (i == j).
Qed.
Lemma Lf_vec y (r : 'I_n) : ctotal (fun k => cmul (Lf r k) (y k)) n = (y r : cx) - (ctotal (fun i => cmul (cmul (rc (A r i)) (G i)) (y i)) n : cx).
Proof.
have e : (Kmx *m vecf n y) r 0 = ctotal (fun i => cmul (cmul (rc (A r i)) (G i)) (y i)) n.
  by rewrite mxE ctotalE; apply: eq_bigr => i _; rewrite !mxE.
by rewrite -mulf LfE mulmxBl mul1mx [LHS]mxE [X in X + _]mxE [X in _ + X]mxE e.
Qed.
Lemma fregularL : faddeev_regular n A G <-> regular n Lf.
Proof.
split=> h y hy.
  apply: h => r /ltP hr; apply: (@subr0_eq cx_zmodType (y r)); rewrite -(Lf_vec y (Ordinal hr)) hy //; exact/ltP.
apply: h => r /ltP hr; rewrite (Lf_vec y (Ordinal hr)).
have <- : y r = ctotal (fun i => cmul (cmul (rc (A r i)) (G i)) (y i)) n by apply: hy; apply/ltP.
exact: (@subrr cx_zmodType).
Qed.
Lemma fregularE : faddeev_regular n A G <-> \det (1%:M - Kmx) != 0.
Proof. by rewrite fregularL regularE LfE. Qed.
Lemma solutionL X : (forall r k, (r < n)%coq_nat -> (k < n)%coq_nat -> ctotal (fun i => cmul (Lf r i) (X i k)) n = rc (A r k)) -> faddeev_solution n A G X.
Proof.
move=> h; apply/solutionE; rewrite -LfE; apply/matrixP => r k; rewrite [RHS]mxE -h; try exact/ltP.
by rewrite mxE ctotalE; apply: eq_bigr => i _; rewrite !mxE.
Qed.

(* C43 *)
Variable getrf : getrf_t.
Hypothesis Hgetrf : getrf_contract getrf.
Variables x c : 'I_n.
Let a (k : nat) : cdouble := neumann n A G k x c.
Lemma a_aK k : (a k : cx) = aK Kmx Amx x c k.
Proof. exact: neumannE. Qed.
Lemma Qmx_ext (u v : nat -> cx) z M : (forall k, u k = v k) -> Qmx u z M = Qmx v z M.
Proof. by move=> h; apply/matrixP => i j; rewrite !mxE h. Qed.
Lemma Pmx_ext (u v : nat -> cx) z M : (forall k, u k = v k) -> Pmx u z M = Pmx v z M.
Proof. by move=> h; apply/matrixP => i j; rewrite !mxE h; case: ifP => // _; apply: eq_bigr => l _; rewrite h. Qed.
Lemma pade_is_solution X M : faddeev_solution n A G X -> (n <= M)%coq_nat -> regular (M + 1)%coq_nat (denominator a M c1) ->
  faddeev_regular n A G /\ pade_val (DetModel.determinant getrf) a M c1 = X x c.
Proof.
move=> /solutionE hX /leP hM /regular_Q; rewrite (pade_det a c1 M Hgetrf) (Qmx_ext _ _ a_aK) (Pmx_ext _ _ a_aK) => hQ.
have [h1 h2] := pade_solves hX hM hQ.
by split; [ apply/fregularE | rewrite h2 mxE ].
Qed.
Lemma beyond_singular M : (n < M)%coq_nat -> DetModel.determinant getrf (mxQ a M c1) (M + 1)%coq_nat = c0 /\ DetModel.determinant getrf (mxP a M c1) (M + 1)%coq_nat = c0.
Proof.
move=> /ltP hM; rewrite (det_P a c1 M Hgetrf) (det_Q a c1 M Hgetrf) (Qmx_ext _ _ a_aK) (Pmx_ext _ _ a_aK).
by have [] := @pade_beyond cx_fieldType n' Kmx Amx x c M hM.
Qed.
End Mx.

(* the same with natural numbers *)
Section Plain.
Variables (D : nat) (A : nat -> nat -> R) (G : nat -> cdouble) (getrf : getrf_t) (x c : nat).
Hypothesis Hgetrf : getrf_contract getrf.
Hypothesis hx : (x < D)%coq_nat.
Hypothesis hc : (c < D)%coq_nat.
Lemma plain_solution X M : faddeev_solution D A G X -> (D <= M)%coq_nat -> regular (M + 1)%coq_nat (denominator (fun k => neumann D A G k x c) M c1) ->
  faddeev_regular D A G /\ pade_val (DetModel.determinant getrf) (fun k => neumann D A G k x c) M c1 = X x c.
Proof.
move: (hx) (hc) => /ltP hx' /ltP hc'; case: D hx' hc' => [//|n] hx' hc'.
exact: (@pade_is_solution n A G getrf Hgetrf (Ordinal hx') (Ordinal hc') X M).
Qed.
Lemma plain_beyond M : (D < M)%coq_nat ->
  DetModel.determinant getrf (mxQ (fun k => neumann D A G k x c) M c1) (M + 1)%coq_nat = c0 /\
  DetModel.determinant getrf (mxP (fun k => neumann D A G k x c) M c1) (M + 1)%coq_nat = c0.
Proof.
move: (hx) (hc) => /ltP hx' /ltP hc'; case: D hx' hc' => [//|n] hx' hc'.
exact: (@beyond_singular n A G getrf Hgetrf (Ordinal hx') (Ordinal hc') M).
Qed.
End Plain.
Lemma plain_regular D A G : faddeev_regular D A G -> regular D (Lf A G).
Proof. by case: D => [h y hy i /ltP //|n]; move/fregularL. Qed.
Lemma plain_solves D A G X : (forall r k, (r < D)%coq_nat -> (k < D)%coq_nat -> ctotal (fun i => cmul (Lf A G r i) (X i k)) D = rc (A r k)) -> faddeev_solution D A G X.
Proof. by case: D => [h r k /ltP //|n]; apply: solutionL. Qed.
(* the solution is unique *)
Lemma plain_unique D A G X Y : faddeev_regular D A G -> faddeev_solution D A G X -> faddeev_solution D A G Y ->
  forall r k, (r < D)%coq_nat -> (k < D)%coq_nat -> X r k = Y r k.
Proof.
case: D => [h1 h2 h3 r k /ltP //|n] /fregularE hd /solutionE hX /solutionE hY r k /ltP hr /ltP hk.
have hu : 1%:M - Kmx n A G \in unitmx by rewrite unitmxE unitfE.
have e : mxf n.+1 X = mxf n.+1 Y by rewrite -[LHS](mulKmx hu) hX -hY mulKmx.
by have := congr1 (fun Z : 'M_n.+1 => Z (Ordinal hr) (Ordinal hk)) e; rewrite !mxE.
Qed.
(* ... and exists *)
Lemma plain_exists D A G : faddeev_regular D A G -> exists X, faddeev_solution D A G X.
Proof.
case: D => [h|n /fregularE hd]; first by exists (fun _ _ => c0) => r k /ltP.
have hu : 1%:M - Kmx n A G \in unitmx by rewrite unitmxE unitfE.
pose S : 'M[cx]_n.+1 := invmx (1%:M - Kmx n A G) *m Amx n A.
exists (fun r k => S (inord r) (inord k)); apply/solutionE.
have -> : mxf n.+1 (fun r k => S (inord r) (inord k)) = S by apply/matrixP => i j; rewrite mxE !inord_val.
by rewrite /S mulKVmx.
Qed.
