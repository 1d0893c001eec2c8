(* Change of basis in the scattering equation (C77). *)
From Coq Require Import Reals.
From Verif Require Import Common ArrayLib SwpModel ResolventModel GridSpec FaddeevModel FaddeevSpec PermPropsLemmas DetModel DenseModel PadeSpec PadeLists ComplexField
  DetProofs PadeAlgebra PadeLink DensePadeLink MatrixInverse AgsSpec.
From mathcomp Require Import all_ssreflect all_algebra zify.
Set Implicit Arguments. Unset Strict Implicit. Unset Printing Implicit Defensive.
Import GRing.Theory.
Local Open Scope ring_scope.

Lemma rcE x : rc x = r2c x. Proof. by []. Qed.

Section Change.
Variables (D' : nat) (C K A : nat -> nat -> R) (G : nat -> cdouble).
Let D := D'.+1.
Hypothesis Hcol : forall x y, (x < D)%coq_nat -> (y < D)%coq_nat -> GridSpec.sum (fun k => Rmult (C k x) (C k y)) D = if Nat.eqb x y then R1 else R0.
Hypothesis Hrow : forall x y, (x < D)%coq_nat -> (y < D)%coq_nat -> GridSpec.sum (fun k => Rmult (C x k) (C y k)) D = if Nat.eqb x y then R1 else R0.
Hypothesis HA : forall x y, (x < D)%coq_nat -> (y < D)%coq_nat ->
  A x y = GridSpec.sum (fun i => GridSpec.sum (fun j => Rmult (Rmult (C i x) (K i j)) (C j y)) D) D.
Definition Cm : 'M[cx]_D := mxf D (fun r c => rc (C r c)).
Definition Km : 'M[cx]_D := mxf D (fun r c => rc (K r c)).
Definition Gm : 'M[cx]_D := diag_mx (\row_j (G j : cx)).
Definition Rm : 'M[cx]_D := mxf D (resolvent_op D C G).

Lemma ide (i j : 'I_D) : r2c (if Nat.eqb i j then R1 else R0) = (i == j)%:R.
Proof.
have -> : (i == j) = Nat.eqb i j by apply/eqP/idP => [->|/PeanoNat.Nat.eqb_eq /val_inj //]; rewrite PeanoNat.Nat.eqb_refl.
by case: (Nat.eqb i j).
Qed.
Lemma CtC : Cm^T *m Cm = 1%:M.
Proof.
apply/matrixP => a b; rewrite !mxE -ide -(Hcol (x:=a) (y:=b)); [|exact/ltP|exact/ltP].
by rewrite r2c_sum; apply: eq_bigr => k _; rewrite !mxE r2c_mul.
Qed.
Lemma CCt : Cm *m Cm^T = 1%:M.
Proof.
apply/matrixP => a b; rewrite !mxE -ide -(Hrow (x:=a) (y:=b)); [|exact/ltP|exact/ltP].
by rewrite r2c_sum; apply: eq_bigr => k _; rewrite !mxE r2c_mul.
Qed.
Lemma AmxE : Amx D' A = Cm^T *m Km *m Cm.
Proof.
apply/matrixP => a b; rewrite [LHS]mxE HA; [|exact/ltP|exact/ltP].
rewrite -mulmxA mxE (rcE (GridSpec.sum _ _)) r2c_sum; apply: eq_bigr => i _; rewrite r2c_sum !mxE big_distrr /=.
by apply: eq_bigr => j _; rewrite !mxE !r2c_mul mulrA.
Qed.
Lemma KmxE : Kmx D' A G = Amx D' A *m Gm.
Proof.
apply/matrixP => i j; rewrite [RHS]mxE (bigD1 j) //= big1 ?addr0; last by move=> l hl; rewrite !mxE (negbTE hl) mulr0n mulr0.
by rewrite !mxE eqxx mulr1n.
Qed.
Lemma RmE : Rm = Cm *m Gm *m Cm^T.
Proof.
apply/matrixP => a b; rewrite [LHS]mxE /resolvent_op ctotalE mxE; apply: eq_bigr => k _.
have -> : (Cm *m Gm) a k = (rc (C a k) : cx) * (G k : cx).
  rewrite [LHS]mxE (bigD1 k) //= big1 ?addr0; last by move=> l hl; rewrite !mxE (negbTE hl) mulr0n mulr0.
  by rewrite !mxE eqxx mulr1n.
by rewrite !mxE rcE r2c_mul -cx_mulE -mulrA mulrAC mulrA.
Qed.
Lemma KR (T : nat -> nat -> cdouble) (x y : 'I_D) :
  (Km *m (Rm *m mxf D T)) x y = ctotal (fun z => cmul (rc (K x z)) (ctotal (fun t => cmul (resolvent_op D C G z t) (T t y)) D)) D.
Proof.
rewrite mxE ctotalE; apply: eq_bigr => z _; rewrite mxE -cx_mulE; congr (_ * _).
by rewrite mxE ctotalE; apply: eq_bigr => t _; rewrite !mxE.
Qed.
Lemma KRv (v : nat -> cdouble) (x : 'I_D) :
  (Km *m (Rm *m vecf D v)) x 0 = ctotal (fun z => cmul (rc (K x z)) (ctotal (fun t => cmul (resolvent_op D C G z t) (v t)) D)) D.
Proof.
rewrite mxE ctotalE; apply: eq_bigr => z _; rewrite mxE -cx_mulE; congr (_ * _).
by rewrite mxE ctotalE; apply: eq_bigr => t _; rewrite !mxE.
Qed.
Lemma agsE T : ags_solution D K (resolvent_op D C G) T <-> mxf D T = Km + Km *m (Rm *m mxf D T).
Proof.
split=> h.
  apply/matrixP => x y; rewrite [LHS]mxE [RHS]mxE KR [X in X + _]mxE; apply: h; exact/ltP.
move=> x y /ltP hx /ltP hy; have := congr1 (fun Y : 'M_D => Y (Ordinal hx) (Ordinal hy)) h.
by rewrite [LHS]mxE [RHS]mxE KR [X in X + _]mxE.
Qed.
Lemma betweenE T : mxf D (between D C T) = Cm^T *m mxf D T *m Cm.
Proof.
apply/matrixP => x y; rewrite [LHS]mxE /between ctotalE -mulmxA [RHS]mxE; apply: eq_bigr => i _.
rewrite ctotalE !mxE big_distrr /=; apply: eq_bigr => j _; by rewrite !mxE -!cx_mulE mulrA.
Qed.
Lemma solE X : faddeev_solution D A G X <-> mxf D X = Amx D' A + Amx D' A *m (Gm *m mxf D X).
Proof.
rewrite solutionE KmxE mulmxBl mul1mx mulmxA; split=> [/eqP|h]; first by rewrite subr_eq => /eqP.
by apply/eqP; rewrite subr_eq -h.
Qed.
Lemma ags_to_faddeev T : ags_solution D K (resolvent_op D C G) T -> faddeev_solution D A G (between D C T).
Proof.
move/agsE => h; apply/solE; rewrite betweenE AmxE {1}h RmE mulmxDr mulmxDl; congr (_ + _).
by rewrite !mulmxA.
Qed.
Definition back (X : nat -> nat -> cdouble) : nat -> nat -> cdouble := fun i j => (Cm *m mxf D X *m Cm^T) (inord i) (inord j).
Lemma mxf_fun (M : 'M[cx]_D) : mxf D (fun i j => M (inord i) (inord j)) = M.
Proof. by apply/matrixP => i j; rewrite mxE !inord_val. Qed.
Lemma faddeev_to_ags X : faddeev_solution D A G X -> ags_solution D K (resolvent_op D C G) (back X).
Proof.
move/solE => h; apply/agsE; rewrite /back mxf_fun RmE {1}h AmxE mulmxDr mulmxDl; congr (_ + _).
  by rewrite !mulmxA CCt mul1mx -(mulmxA Km) CCt mulmx1.
rewrite !mulmxA CCt mul1mx -[in RHS](mulmxA (Km *m Cm *m Gm) Cm^T Cm) CtC mulmx1.
by [].
Qed.
Lemma reg_to_faddeev : ags_regular D K (resolvent_op D C G) -> faddeev_regular D A G.
Proof.
move=> h y hy r /ltP hr.
have hv : vecf D y = Amx D' A *m (Gm *m vecf D y).
  apply/colP => i; rewrite mulmxA -KmxE [LHS]mxE hy; last exact/ltP.
  by rewrite mxE ctotalE; apply: eq_bigr => k _; rewrite !mxE.
pose v := Cm *m vecf D y.
have hz : v = Km *m (Rm *m v).
  rewrite {1}/v {1}hv AmxE RmE /v !mulmxA CCt mul1mx -[in RHS](mulmxA (Km *m Cm *m Gm) Cm^T Cm) CtC mulmx1.
  by [].
have hv0 : v = 0.
  apply/colP => i; rewrite [RHS]mxE.
  have := h (fun k => v (inord k) 0); have e : vecf D (fun k => v (inord k) 0) = v by apply/colP => k; rewrite mxE inord_val.
  move=> /(_ _ i) ; rewrite inord_val => -> //; last exact/ltP.
  move=> x /ltP hx; have := KRv (fun k => v (inord k) 0) (Ordinal hx); rewrite e -hz => <-; congr (v _ _).
  by apply/val_inj; rewrite /= inordK.
have : vecf D y = 0 by rewrite -[vecf D y]mul1mx -CtC -mulmxA -/v hv0 mulmx0.
by move/(congr1 (fun M : 'cV_D => M (Ordinal hr) 0)); rewrite !mxE.
Qed.
Lemma back_between X x y : (x < D)%coq_nat -> (y < D)%coq_nat -> between D C (back X) x y = X x y.
Proof.
move=> /ltP hx /ltP hy; have e : mxf D (between D C (back X)) = mxf D X.
  by rewrite betweenE /back mxf_fun !mulmxA CtC mul1mx -mulmxA CtC mulmx1.
by have := congr1 (fun M : 'M_D => M (Ordinal hx) (Ordinal hy)) e; rewrite !mxE.
Qed.
Lemma bornS n : mxf D (born_term D K (resolvent_op D C G) n.+1) = mxf D (born_term D K (resolvent_op D C G) n) *m Rm *m Km.
Proof.
apply/matrixP => x y; rewrite [LHS]mxE.
rewrite [LHS](_ : _ = ctotal (fun z => cmul (ctotal (fun t => cmul (born_term D K (resolvent_op D C G) n x t) (resolvent_op D C G t z)) D) (rc (K z y))) D) //.
rewrite ctotalE [RHS]mxE; apply: eq_bigr => z _; rewrite [Km z y]mxE -cx_mulE; congr (_ * _).
by rewrite mxE ctotalE; apply: eq_bigr => t _; rewrite !mxE.
Qed.
Lemma born_neumann n x y : (x < D)%coq_nat -> (y < D)%coq_nat -> neumann D A G n x y = between D C (born_term D K (resolvent_op D C G) n) x y.
Proof.
move=> /ltP hx /ltP hy; rewrite (neumannE A G n (Ordinal hx) (Ordinal hy)).
have e : mxf D (between D C (born_term D K (resolvent_op D C G) n)) = Kmx D' A G ^+ n *m Amx D' A.
  rewrite betweenE KmxE AmxE; elim: n => [|n IH]; first by rewrite expr0 mul1mx.
  rewrite bornS RmE exprSr -[in RHS]mulmxE -!mulmxA.
  have -> : Cm^T *m (mxf D (born_term D K (resolvent_op D C G) n) *m (Cm *m (Gm *m (Cm^T *m (Km *m Cm))))) =
            (Cm^T *m mxf D (born_term D K (resolvent_op D C G) n) *m Cm) *m (Gm *m (Cm^T *m (Km *m Cm))) by rewrite !mulmxA.
  by rewrite IH !mulmxA.
by rewrite -e mxE.
Qed.
End Change.
