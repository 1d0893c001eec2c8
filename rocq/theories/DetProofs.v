(* determinant() computes the determinant, given LAPACK's contract; the contract can be met. *)
From Coq Require Import Reals List.
From Verif Require Import Common ResolventModel FaddeevModel DetModel ComplexField.
From mathcomp Require Import all_ssreflect all_fingroup all_algebra zify.
Set Implicit Arguments. Unset Strict Implicit. Unset Printing Implicit Defensive.
Import GRing.Theory.
Local Open Scope ring_scope.

Definition mxf n (f : nat -> nat -> cdouble) : 'M[cx]_n := \matrix_(i, j) (f i j : cx).
Definition mxl n (l : list cdouble) : 'M[cx]_n := mxf n (fun r c => List.nth (r * n + c)%coq_nat l c0).

Lemma ctotalE f n : ctotal f n = \sum_(k < n) (f k : cx).
Proof. by elim: n => [|n IH]; rewrite ?big_ord0 // big_ord_recr /= IH. Qed.

Lemma swapped_mx n (i j : 'I_n) f : mxf n (swapped i j f) = xrow i j (mxf n f).
Proof.
apply/matrixP => r c; rewrite !mxE /swapped; congr (f _ c).
case: tpermP => [->|->|h1 h2]; rewrite ?PeanoNat.Nat.eqb_refl //.
  by case: PeanoNat.Nat.eqb_spec => // ->.
case: PeanoNat.Nat.eqb_spec => [h|_]; first by case: h1; apply: val_inj.
by case: PeanoNat.Nat.eqb_spec => [h|//]; case: h2; apply: val_inj.
Qed.
Lemma det_xrow n (i j : 'I_n) (X : 'M[cx]_n) : \det (xrow i j X) = (-1) ^+ (i != j) * \det X.
Proof. by rewrite xrowE det_mulmx /tperm_mx det_perm odd_tperm. Qed.

Definition sgn (ipiv : list nat) (i : nat) : cx := (-1) ^+ (List.nth i ipiv O != i.+1).
Lemma det_interchanged n ipiv f k : (k <= n)%N -> (forall i, (i < n)%N -> (i < List.nth i ipiv O <= n)%N) ->
  \det (mxf n (List.fold_left (fun f i => swapped i (List.nth i ipiv O - 1)%coq_nat f) (List.seq O k) f)) =
  (\prod_(i < k) sgn ipiv i) * \det (mxf n f).
Proof.
move=> + hp; elim: k => [|k IH] hk; first by rewrite big_ord0 mul1r.
rewrite List.seq_S List.fold_left_app /= big_ord_recr /= -[RHS]mulrA mulrCA -(IH (ltnW hk)) => {IH}.
move: (List.fold_left _ _ _) => g; have /andP[h1 h2] := hp k hk.
have hj : ((List.nth k ipiv O - 1)%coq_nat < n)%N by lia.
have := swapped_mx (Ordinal hk) (Ordinal hj) g; rewrite /= => ->; rewrite det_xrow; congr (_ ^+ _ * _).
rewrite -val_eqE /=; case: eqP; case: eqP => //=; lia.
Qed.

Lemma det_lower n LU : \det (mxf n (lower n LU)) = 1.
Proof.
rewrite det_trig; last by apply/is_trig_mxP => i j h; rewrite mxE /lower; case: PeanoNat.Nat.ltb_spec => [|_]; [lia|case: PeanoNat.Nat.eqb_spec => //; lia].
by rewrite big1 // => i _; rewrite mxE /lower PeanoNat.Nat.ltb_irrefl PeanoNat.Nat.eqb_refl.
Qed.
Lemma det_upper n LU : \det (mxf n (upper n LU)) = \prod_(i < n) (List.nth (i * n + i)%coq_nat LU c0 : cx).
Proof.
rewrite -det_tr det_trig; last by apply/is_trig_mxP => i j h; rewrite !mxE /upper; case: PeanoNat.Nat.leb_spec => //; lia.
by apply: eq_bigr => i _; rewrite !mxE /upper PeanoNat.Nat.leb_refl.
Qed.

Lemma diag_productE LU ipiv n : diag_product LU ipiv n = \prod_(i < n) (sgn ipiv i * (List.nth (i * n + i)%coq_nat LU c0 : cx)).
Proof.
rewrite /diag_product; have G k : List.fold_left (fun acc i => if negb (PeanoNat.Nat.eqb (List.nth i ipiv O) (i + 1)%coq_nat) then cmul acc (copp (List.nth (i * n + i)%coq_nat LU c0))
   else cmul acc (List.nth (i * n + i)%coq_nat LU c0)) (List.seq O k) c1 = \prod_(i < k) (sgn ipiv i * (List.nth (i * n + i)%coq_nat LU c0 : cx)).
  elim: k => [|k IH]; first by rewrite big_ord0.
  rewrite List.seq_S List.fold_left_app IH big_ord_recr /=; move: (\prod_(i < k) _) => p.
  rewrite /sgn; case: PeanoNat.Nat.eqb_spec => [->|h] /=.
    by rewrite (_ : ((k + 1)%coq_nat != k.+1) = false) ?expr0 ?mul1r //; apply/negbTE; rewrite negbK; apply/eqP; lia.
  rewrite (_ : (List.nth k ipiv O != k.+1)%N = true) ?expr1; last by apply/eqP; lia.
  by rewrite mulN1r.
exact: G.
Qed.

Lemma determinant_ok getrf A n : getrf_ok n A (fst (getrf A n)) (snd (getrf A n)) -> DetModel.determinant getrf A n = \det (mxl n A).
Proof.
rewrite /DetModel.determinant; case: (getrf A n) => LU ipiv /= [hp hlu]; rewrite diag_productE.
have hp' i : (i < n)%N -> (i < List.nth i ipiv O <= n)%N by move=> h; have := hp i; lia.
have e1 := det_interchanged (fun r c => List.nth (r * n + c)%coq_nat A c0) (leqnn n) hp'.
have e2 : mxf n (interchanged n ipiv (fun r c => List.nth (r * n + c)%coq_nat A c0)) = mxf n (lower n LU) *m mxf n (upper n LU).
  apply/matrixP => i j; rewrite !mxE hlu; [|by apply/ltP|by apply/ltP].
  by rewrite ctotalE; apply: eq_bigr => k _; rewrite !mxE.
rewrite -/(interchanged n ipiv _) e2 det_mulmx det_lower mul1r det_upper in e1.
rewrite big_split /= e1 mulrA -big_split /= big1 ?mul1r // => i _.
by rewrite /sgn -signr_addb addbb.
Qed.

(* ---------- the contract can be met for every matrix ---------- *)
Lemma interchanged_ex n (s : 'S_n) k : (k <= n)%N -> exists ipiv (c : 'S_n), List.length ipiv = k /\
  (forall i, (i < k)%N -> (i < List.nth i ipiv O <= n)%N) /\ (forall i : 'I_n, (i < k)%N -> c i = s i) /\
  (forall f (i : 'I_n) j, List.fold_left (fun f i => swapped i (List.nth i ipiv O - 1)%coq_nat f) (List.seq O k) f i j = f (c i : nat) j).
Proof.
elim: k => [|k IH] hk.
  exists nil, (1%g : 'S_n); split => //; split => //; split => // f i j /=; by rewrite perm1.
have [ipiv [c [hl [hr [hs hf]]]]] := IH (ltnW hk); pose ko := Ordinal hk; pose jo := (c^-1)%g (s ko).
have hj : (k <= jo)%N.
  rewrite leqNgt; apply/negP => h; have := hs jo h; rewrite /jo permKV => /perm_inj e.
  by move: h; rewrite /jo -e /= ltnn.
exists (ipiv ++ cons (jo.+1) nil)%list, (tperm ko jo * c)%g; split; first by rewrite List.app_length hl /=; lia.
have hn i : (i < k)%N -> List.nth i (ipiv ++ cons jo.+1 nil)%list O = List.nth i ipiv O by move=> h; rewrite List.app_nth1 // hl; lia.
have hnk : List.nth k (ipiv ++ cons jo.+1 nil)%list O = jo.+1 by rewrite List.app_nth2 ?hl // PeanoNat.Nat.sub_diag.
split; [|split].
- move=> i; rewrite ltnS leq_eqVlt => /orP[/eqP ->|h]; first by rewrite hnk ltnS hj ltn_ord.
  by rewrite hn // hr.
- move=> i; rewrite ltnS leq_eqVlt permM => /orP[/eqP h|h].
    have -> : i = ko by apply: val_inj.
    by rewrite tpermL permKV.
  rewrite tpermD ?hs //; rewrite -val_eqE /=; lia.
move=> f i j; rewrite List.seq_S List.fold_left_app /= hnk /= PeanoNat.Nat.sub_0_r.
have -> : List.fold_left (fun f0 i0 => swapped i0 (List.nth i0 (ipiv ++ cons jo.+1 nil)%list O - 1)%coq_nat f0) (List.seq O k) f =
  List.fold_left (fun f0 i0 => swapped i0 (List.nth i0 ipiv O - 1)%coq_nat f0) (List.seq O k) f.
  have hin i0 : List.In i0 (List.seq O k) -> (i0 < k)%N by move=> /List.in_seq h; lia.
  elim: (List.seq O k) f hin => [|x l IH2] f0 hin //=; rewrite hn; last by apply: hin; left.
  by apply: IH2 => y hy; apply: hin; right.
rewrite /swapped permM.
have -> : (if PeanoNat.Nat.eqb i k then jo : nat else if PeanoNat.Nat.eqb i jo then k else i) = tperm ko jo i.
  case: tpermP => [->|->|h1 h2] /=; rewrite ?PeanoNat.Nat.eqb_refl //.
    by case: PeanoNat.Nat.eqb_spec.
  case: PeanoNat.Nat.eqb_spec => [h|_]; first by case: h1; apply: val_inj.
  by case: PeanoNat.Nat.eqb_spec => [h|//]; case: h2; apply: val_inj.
exact: hf.
Qed.

Lemma nth_map_seq (f : nat -> cdouble) m k : (k < m)%N -> List.nth k (List.map f (List.seq O m)) c0 = f k.
Proof.
move=> h; rewrite (List.nth_indep _ _ (f O)); last by rewrite List.map_length List.seq_length; lia.
by rewrite List.map_nth List.seq_nth //; lia.
Qed.

Lemma getrf_ex A n : exists LU ipiv, getrf_ok n A LU ipiv.
Proof.
case: n => [|m]; first by exists nil, nil; split => i; lia.
set n := m.+1; case e: (cormen_lup (mxl n A)) => [[P L] U].
have := cormen_lup_perm (mxl n A); have := cormen_lup_correct (mxl n A).
have hlo := fun i j => @cormen_lup_lower _ m (mxl n A) i j; have hup := fun i j => @cormen_lup_upper _ m (mxl n A) i j; rewrite e /= in hlo hup *.
move=> hlu /is_perm_mxP[s hs].
have [ipiv [c [_ [hr [hcs hf]]]]] := interchanged_ex s (leqnn n).
pose g k := let i := inord (k %/ n) : 'I_n in let j := inord (k %% n) : 'I_n in (if (j < i)%N then L i j else U i j : cdouble).
pose LU := List.map g (List.seq O (n * n)%N).
have hLU (i j : 'I_n) : List.nth (i * n + j)%coq_nat LU c0 = if (j < i)%N then L i j else U i j.
  have h : (i * n + j < n * n)%N by have hi := ltn_ord i; have hj := ltn_ord j; nia.
  rewrite /LU nth_map_seq // /g; have -> : ((i * n + j)%coq_nat %/ n = i)%N by rewrite divnMDl // divn_small ?addn0.
  have -> : ((i * n + j)%coq_nat %% n = j)%N by rewrite modnMDl modn_small.
  by rewrite !inord_val.
exists LU, ipiv; split.
  by move=> i hi; have := hr i; lia.
move=> i j hi hj; have hi' : (i < n)%N by apply/ltP. have hj' : (j < n)%N by apply/ltP.
have -> : i = Ordinal hi' by []. have -> : j = Ordinal hj' by [].
move: (Ordinal hi') (Ordinal hj') => io jo; rewrite /interchanged hf hcs //.
have := congr1 (fun X : 'M_n => X io jo) hlu; rewrite hs -[perm_mx s * _]row_permE -[L * U]/(L *m U) !mxE => ->.
rewrite ctotalE; apply: eq_bigr => k _.
suff [-> ->] : lower n LU io k = L io k /\ upper n LU k jo = U k jo by [].
split.
  rewrite /lower; case: PeanoNat.Nat.ltb_spec => h; first by rewrite hLU (_ : (k < io)%N) //; lia.
  rewrite hlo; last by apply/leP. rewrite -val_eqE /=.
  by case: PeanoNat.Nat.eqb_spec => [->|h2]; rewrite ?eqxx // (_ : (io == k :> nat) = false) //; apply/eqP => e2; apply: h2.
rewrite /upper; case: PeanoNat.Nat.leb_spec => h; last by rewrite hup //; apply/ltP.
by rewrite hLU (_ : (jo < k)%N = false) // ltnNge; apply/negbF; apply/leP.
Qed.
Lemma getrf_exists : exists getrf, getrf_contract getrf.
Proof.
pose ex A n := ClassicalEpsilon.constructive_indefinite_description _ (getrf_ex A n).
pose ex2 A n := ClassicalEpsilon.constructive_indefinite_description _ (proj2_sig (ex A n)).
exists (fun A n => (proj1_sig (ex A n), proj1_sig (ex2 A n))) => A n /=; exact: (proj2_sig (ex2 A n)).
Qed.
