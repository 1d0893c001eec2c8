(* The algebra behind C42 and C43, over any field. *)
From mathcomp Require Import all_ssreflect all_algebra.
Set Implicit Arguments. Unset Strict Implicit. Unset Printing Implicit Defensive.
Import GRing.Theory.
Local Open Scope ring_scope.

Section Pade.
Variable F : fieldType.
Variables (a : nat -> F) (z : F).
(* denominator and numerator matrices of the [M/M] approximant *)
Definition Qmx (M : nat) : 'M[F]_(M.+1) := \matrix_(i, j) (if (i < M)%N then a (i + j).+1 else z ^+ (M - j)).
Definition Pmx (M : nat) : 'M[F]_(M.+1) :=
  \matrix_(i, j) (if (i < M)%N then a (i + j).+1 else \sum_(M - j <= l < M.+1) a (l - (M - j))%N * z ^+ l).

(* the series times the polynomial q vanishes at orders M+1 .. 2M *)
Variables (M : nat) (q : nat -> F).
Definition conv (k : nat) : F := \sum_(i < k.+1) q i * a (k - i)%N.
Hypothesis qM : forall i, (M < i)%N -> q i = 0.
Hypothesis van : forall k, (M < k <= M + M)%N -> conv k = 0.
Definition qval : F := \sum_(i < M.+1) q i * z ^+ i.
Definition pval : F := \sum_(k < M.+1) conv k * z ^+ k.
Let v : 'cV[F]_(M.+1) := \col_i q (M - i)%N.

Lemma conv_trunc k : (M <= k)%N -> conv k = \sum_(i < M.+1) q i * a (k - i)%N.
Proof.
move=> hk; rewrite /conv -!(big_mkord xpredT (fun i => q i * a (k - i)%N)).
rewrite (big_cat_nat _ (n := M.+1)) //=; rewrite [X in _ + X]big_nat_cond [X in _ + X]big1 ?addr0 // => i.
by rewrite andbT => /andP[h _]; rewrite qM ?mul0r.
Qed.
Lemma top_row i : (i < M)%N -> \sum_(j < M.+1) a (i + j).+1 * q (M - j)%N = 0.
Proof.
move=> hi; have := van (k := (M + i.+1)%N).
rewrite conv_trunc ?leq_addr // => h.
rewrite -[RHS]h; last by rewrite -addn1 leq_add2l /= leq_add2l hi.
rewrite (reindex_inj rev_ord_inj) /=; apply: eq_bigr => j _.
rewrite mulrC subSS; have hj : (j <= M)%N by rewrite -ltnS.
by rewrite subKn //; congr (_ * a _); rewrite addnS subSn ?(leq_trans hj) ?leq_addr // [(M + i)%N]addnC addnBA.
Qed.
Lemma Qv : Qmx M *m v = qval *: delta_mx ord_max 0.
Proof.
apply/matrixP => i j; rewrite !mxE ord1 eqxx andbT.
case: (ltnP i M) => hi.
  rewrite (_ : (i == ord_max) = false) ?mulr0; last by apply/negbTE; rewrite -val_eqE /= neq_ltn hi.
  by rewrite -[RHS](top_row hi); apply: eq_bigr => l _; rewrite !mxE hi.
have -> : (i == ord_max) by rewrite -val_eqE /= eqn_leq hi andbT -ltnS ltn_ord.
rewrite mulr1 /qval (reindex_inj rev_ord_inj) /=; apply: eq_bigr => l _.
have hl : (l <= M)%N by rewrite -ltnS.
by rewrite !mxE ltnNge hi /= subSS subKn // mulrC.
Qed.
Lemma Pv : Pmx M *m v = pval *: delta_mx ord_max 0.
Proof.
apply/matrixP => i j; rewrite !mxE ord1 eqxx andbT.
case: (ltnP i M) => hi.
  rewrite (_ : (i == ord_max) = false) ?mulr0; last by apply/negbTE; rewrite -val_eqE /= neq_ltn hi.
  by rewrite -[RHS](top_row hi); apply: eq_bigr => l _; rewrite !mxE hi.
have -> : (i == ord_max) by rewrite -val_eqE /= eqn_leq hi andbT -ltnS ltn_ord.
rewrite mulr1 (reindex_inj rev_ord_inj) /=.
transitivity (\sum_(i0 < M.+1) \sum_(k < M.+1 | (i0 <= k)%N) q i0 * a (k - i0)%N * z ^+ k).
  apply: eq_bigr => l _; rewrite !mxE ltnNge hi /= subSS; have hl : (l <= M)%N by rewrite -ltnS.
  rewrite subKn // mulr_suml big_geq_mkord; apply: eq_bigr => k _.
  by rewrite mulrC mulrA.
rewrite (exchange_big_dep xpredT) //= /pval; apply: eq_bigr => k _.
rewrite /conv mulr_suml -(big_mkord xpredT (fun i => q i * a (k - i)%N * z ^+ k)).
rewrite -(big_mkord (fun i => i <= k)%N (fun i => q i * a (k - i)%N * z ^+ k)).
rewrite [RHS]big_nat [LHS](big_cat_nat _ (n := k.+1)) //=.
rewrite [X in _ + X]big_nat_cond [X in _ + X]big1 ?addr0; last first.
  by move=> l /andP[/andP[h1 _] h2]; rewrite ltnNge h2 in h1.
by rewrite big_nat_cond; apply: eq_bigl => l; rewrite ltnS; case: (l <= k)%N.
Qed.

Lemma same_cofactor i : cofactor (Pmx M) ord_max i = cofactor (Qmx M) ord_max i.
Proof.
rewrite /cofactor; congr (_ * \det _); apply/matrixP => x y; rewrite !mxE.
have -> : (lift ord_max x < M)%N by rewrite lift_max.
by [].
Qed.

Lemma cramer (X : 'M[F]_(M.+1)) c : X *m v = c *: delta_mx ord_max 0 -> forall i, \det X * v i 0 = c * cofactor X ord_max i.
Proof.
move=> h i; have := congr1 (fun Y => (\adj X *m Y) i 0) h.
rewrite mulmxA mul_adj_mx /= -scalemxAr mul_scalar_mx !mxE => ->; congr (_ * _).
rewrite (bigD1 ord_max) //= big1 ?addr0; last by move=> k hk; rewrite !mxE (negbTE hk) mulr0.
by rewrite !mxE !eqxx mulr1.
Qed.

Hypothesis q_nz : exists i, q i != 0.
Lemma pade_exact : \det (Qmx M) != 0 -> qval != 0 /\ \det (Pmx M) / \det (Qmx M) = pval / qval.
Proof.
move=> hQ; case: q_nz => i0 hi0.
have hle : (i0 <= M)%N by rewrite leqNgt; apply: contra hi0 => h; rewrite qM.
pose i : 'I_(M.+1) := inord (M - i0); have hi : v i 0 = q i0 by rewrite mxE inordK ?subKn // ltnS leq_subr.
have e1 := cramer Qv i; have e2 := cramer Pv i; rewrite same_cofactor in e2.
have hv : v i 0 != 0 by rewrite hi.
have h1 : \det (Qmx M) * v i 0 != 0 by rewrite mulf_neq0.
have := h1; rewrite e1 mulf_eq0 negb_or => /andP[hq hc]; split => //.
apply/eqP; rewrite eqr_div //; apply/eqP; apply: (mulIf hv).
by rewrite mulrAC e2 -[RHS]mulrA e1 -mulrA; congr (_ * _); rewrite mulrC.
Qed.
End Pade.

Lemma det_kernel (F : fieldType) n (X : 'M[F]_n) (w : 'cV[F]_n) i : X *m w = 0 -> w i 0 != 0 -> \det X = 0.
Proof.
move=> h hw; have := congr1 (fun Y => (\adj X *m Y) i 0) h.
rewrite mulmxA mul_adj_mx /= mulmx0 mul_scalar_mx !mxE => /eqP; rewrite mulf_eq0 (negbTE hw) orbF => /eqP; exact.
Qed.

(* a series of lower degree makes both determinants vanish *)
Lemma pade_degenerate (F : fieldType) (a : nat -> F) (z : F) M q : z != 0 -> q 0%N != 0 ->
  (forall i, (M <= i)%N -> q i = 0) -> (forall k, (M <= k <= M + M)%N -> conv a q k = 0) ->
  \det (Qmx a z M) = 0 /\ \det (Pmx a z M) = 0.
Proof.
move=> hz h0 hq hc.
pose q' := fun i => if i is i'.+1 then q i' else 0.
have q'M i : (M < i)%N -> q' i = 0 by case: i => // i h; rewrite /q' hq.
have qM i : (M < i)%N -> q i = 0 by move=> h; rewrite hq // ltnW.
have van k : (M < k <= M + M)%N -> conv a q k = 0 by move=> /andP[h1 h2]; rewrite hc // (ltnW h1).
have shift k : conv a q' k.+1 = conv a q k.
  rewrite /conv big_ord_recl /= mul0r add0r; apply: eq_bigr => i _; by rewrite /bump /= add1n subSS.
have van' k : (M < k <= M + M)%N -> conv a q' k = 0.
  by case: k => // k /andP[h1 h2]; rewrite shift hc // -ltnS h1 /= (leq_trans _ h2).
have e1 := Qv z qM van; have e2 := Qv z q'M van'; have e3 := Pv z qM van; have e4 := Pv z q'M van'.
have hqv : qval z M q' = z * qval z M q.
  rewrite /qval big_ord_recl /= mul0r add0r big_ord_recr /= hq // mul0r addr0 mulr_sumr.
  by apply: eq_bigr => i _; rewrite /bump /= add1n exprS mulrCA.
have hpv : pval a z M q' = z * pval a z M q.
  rewrite /pval big_ord_recl big_ord_recr /= hc ?leqnn ?leq_addr // mul0r addr0 {1}/conv big_ord1 /= !mul0r add0r mulr_sumr.
  by apply: eq_bigr => i _; rewrite /bump /= add1n shift exprS mulrCA.
pose w : 'cV[F]_(M.+1) := \col_i q' (M - i)%N - z *: \col_i q (M - i)%N.
have hw : w ord_max 0 != 0 by rewrite !mxE /= subnn /q' add0r oppr_eq0 mulf_neq0.
split; apply: (det_kernel _ hw); rewrite mulmxBr -scalemxAr.
  by rewrite e1 e2 hqv scalerA subrr.
by rewrite e3 e4 hpv scalerA subrr.
Qed.

(* ---------- the Neumann series of a matrix ---------- *)
Section Neumann.
Variables (F : fieldType) (n' : nat).
Let n := n'.+1.
Variables (K A : 'M[F]_n).
Definition qK (i : nat) : F := if (i <= n)%N then (char_poly K)`_(n - i) else 0.
Definition bK (k : nat) : 'M[F]_n := \sum_(i < k.+1) qK i *: K ^+ (k - i).
Lemma bK0 : bK 0 = (qK 0)%:M.
Proof. by rewrite /bK big_ord1 subn0 expr0 -mul_scalar_mx mulmx1. Qed.
Lemma bKS k : bK k.+1 = bK k *m K + (qK k.+1)%:M.
Proof.
rewrite /bK big_ord_recr /= subnn expr0 -[X in _ + X]mul_scalar_mx mulmx1; congr (_ + _).
rewrite mulmx_suml; apply: eq_bigr => i _.
have hi : (i <= k)%N by rewrite -ltnS.
by rewrite -scalemxAl subSn // exprSr.
Qed.
Lemma bK_zero k : (n <= k)%N -> bK k = 0.
Proof.
have hn : bK n = 0.
  rewrite -[RHS](Cayley_Hamilton K) -[char_poly K]coefK poly_def rmorph_sum size_char_poly /bK.
  rewrite (reindex_inj rev_ord_inj) /=; apply: eq_bigr => i _.
  have hi : (i <= n)%N by rewrite -ltnS.
  by rewrite subSS /qK leq_subr subKn // linearZ /= rmorphX /= horner_mx_X.
elim: k => // k IH; rewrite leq_eqVlt => /orP[/eqP <- //|]; rewrite ltnS => hk.
by rewrite bKS IH // mul0mx add0r /qK leqNgt ltnS hk /= raddf0.
Qed.
Lemma qK_zero i : (n < i)%N -> qK i = 0.
Proof. by move=> h; rewrite /qK leqNgt h. Qed.
Lemma qK0 : qK 0 = 1.
Proof.
by rewrite /qK subn0 /=; have := char_poly_monic K; rewrite monicE lead_coefE size_char_poly => /eqP.
Qed.
Lemma sum_qK m : (n <= m)%N -> \sum_(i < m.+1) qK i = \det (1%:M - K).
Proof.
move=> hm; have -> : \det (1%:M - K) = (char_poly K).[1].
  rewrite /char_poly -horner_evalE -det_map_mx; congr (\det _); apply/matrixP => i j.
  rewrite !mxE /= !horner_evalE; case: (i == j); by rewrite ?mulr1n ?mulr0n !hornerE ?raddf0 ?hornerE.
rewrite horner_coef size_char_poly -(big_mkord xpredT qK) (big_cat_nat _ (n := n.+1)) //=.
rewrite [X in _ + X]big_nat_cond [X in _ + X]big1 ?addr0; last first.
  by move=> i; rewrite andbT => /andP[h _]; rewrite qK_zero.
rewrite big_mkord [RHS](reindex_inj rev_ord_inj) /=; apply: eq_bigr => i _.
have hi : (i <= n)%N by rewrite -ltnS.
by rewrite /qK hi subSS expr1n mulr1.
Qed.
Lemma sum_bK m : (n <= m)%N -> (\sum_(k < m.+1) bK k) *m (1%:M - K) = (\det (1%:M - K))%:M.
Proof.
move=> hm.
have tele j : (\sum_(k < j.+1) bK k) *m (1%:M - K) = (\sum_(i < j.+2) qK i)%:M - bK j.+1.
  elim: j => [|j IH].
    by rewrite big_ord1 !big_ord_recr big_ord0 /= add0r mulmxBr mulmx1 bKS bK0 raddfD /= opprD addrACA subrr addr0.
  have -> : (\sum_(k < j.+2) bK k) *m (1%:M - K) = (\sum_(k < j.+1) bK k) *m (1%:M - K) + (bK j.+1 - bK j.+1 *m K).
    by rewrite big_ord_recr mulmxDl /= [bK j.+1 *m (1%:M - K)]mulmxBr mulmx1.
  have -> : (\sum_(i < j.+3) qK i)%:M = (\sum_(i < j.+2) qK i)%:M + (qK j.+2)%:M :> 'M[F]_n by rewrite big_ord_recr raddfD.
  by rewrite IH (bKS j.+1) [LHS]addrA subrK opprD addrACA subrr addr0.
by rewrite tele bK_zero ?subr0 ?(leqW hm) // sum_qK // leqW.
Qed.

(* the coefficients, their convolution with qK *)
Variables (x y : 'I_n).
Definition aK (k : nat) : F := (K ^+ k *m A) x y.
Lemma conv_aK k : conv aK qK k = (bK k *m A) x y.
Proof.
rewrite /conv /bK mulmx_suml summxE; apply: eq_bigr => i _.
by rewrite /aK -scalemxAl [RHS]mxE.
Qed.

(* U solves (1 - K) U = A *)
Theorem pade_solves (U : 'M[F]_n) M : (1%:M - K) *m U = A -> (n <= M)%N -> \det (Qmx aK 1 M) != 0 ->
  \det (1%:M - K) != 0 /\ \det (Pmx aK 1 M) / \det (Qmx aK 1 M) = U x y.
Proof.
move=> hU hM hQ.
have h1 i : (M < i)%N -> qK i = 0 by move=> h; rewrite qK_zero // (leq_ltn_trans hM).
have h2 k : (M < k <= M + M)%N -> conv aK qK k = 0.
  by move=> /andP[h _]; rewrite conv_aK bK_zero ?mul0mx ?mxE // (leq_trans hM) // ltnW.
have [] := pade_exact h1 h2 _ hQ; first by exists 0%N; rewrite qK0 oner_eq0.
have -> : qval 1 M qK = \det (1%:M - K).
  by rewrite -(sum_qK hM) /qval; apply: eq_bigr => i _; rewrite expr1n mulr1.
move=> hd ->; split => //.
have -> : pval aK 1 M qK = \det (1%:M - K) * U x y.
  rewrite /pval.
  have := congr1 (fun Y => (Y *m U) x y) (sum_bK hM); rewrite mul_scalar_mx [RHS]mxE => <-.
  rewrite -mulmxA hU mulmx_suml summxE; apply: eq_bigr => k _.
  by rewrite expr1n mulr1 conv_aK.
by rewrite mulrC mulKf.
Qed.

Theorem pade_beyond M : (n < M)%N -> \det (Qmx aK 1 M) = 0 /\ \det (Pmx aK 1 M) = 0.
Proof.
move=> hM; apply: (@pade_degenerate F aK 1 M qK); rewrite ?oner_eq0 ?qK0 ?oner_eq0 //.
  by move=> i hi; rewrite qK_zero // (leq_trans hM).
by move=> k /andP[h _]; rewrite conv_aK bK_zero ?mul0mx ?mxE // (leq_trans (ltnW hM)).
Qed.
End Neumann.
