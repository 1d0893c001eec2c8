(* Legendre polynomials: recurrences, derivative, Christoffel-Darboux, integrals, real roots.  Used for the quadrature
   routines (C73, C74).  P is PotentialSpec.P. *)
From Coq Require Import Reals Lra Lia.
From Coquelicot Require Import Coquelicot.
From Verif Require Import Common ArrayLib GridSpec GridPropsLemmas PermPropsLemmas PotentialSpec PotentialPropsLemmas.
Open Scope R_scope.

Notation LP := PotentialSpec.P.
Lemma legendre_pair n x : legendre (S n) x = (LP (S n) x, LP n x).
Proof. unfold LP. cbn [legendre]. destruct (legendre n x). reflexivity. Qed.
Lemma LP0 x : LP 0 x = 1. Proof. reflexivity. Qed.
Lemma LP1 x : LP 1 x = x. Proof. unfold LP. cbn. field. Qed.
Lemma LP_rec n x : (INR n + 2) * LP (S (S n)) x = (2 * INR n + 3) * x * LP (S n) x - (INR n + 1) * LP n x.
Proof.
  assert (E : legendre (S (S n)) x = let (a, b) := legendre (S n) x in (((2 * INR (S n) + 1) * x * a - INR (S n) * b) / (INR (S n) + 1), a)) by reflexivity.
  unfold LP at 1. rewrite E, legendre_pair. cbn [fst]. rewrite S_INR. pose proof (pos_INR n). field. lra.
Qed.
Lemma LP_SS n x : LP (S (S n)) x = ((2 * INR n + 3) * x * LP (S n) x - (INR n + 1) * LP n x) / (INR n + 2).
Proof. pose proof (pos_INR n). apply (Rmult_eq_reg_l (INR n + 2)); [ | lra ]. rewrite LP_rec. field. lra. Qed.

(* derivative *)
Ltac uneta := repeat match goal with |- context [Derive (fun y => LP ?k y) ?x] => change (Derive (fun y => LP k y) x) with (Derive (LP k) x) end.
Fixpoint dLP (n : nat) (x : R) : R := match n with O => 0 | S m => (INR m + 1) * LP m x + x * dLP m x end.
Lemma two_step (Q : nat -> Prop) : Q 0%nat -> Q 1%nat -> (forall n, Q n -> Q (S n) -> Q (S (S n))) -> forall n, Q n.
Proof. intros H0 H1 H n. assert (Q n /\ Q (S n)) by (induction n as [|n [A B]]; auto). tauto. Qed.
Lemma dLP_S n x : dLP (S n) x = (INR n + 1) * LP n x + x * dLP n x. Proof. reflexivity. Qed.
Lemma dLP_a n x : x * dLP (S n) x - dLP n x = (INR n + 1) * LP (S n) x /\ (1 - x * x) * dLP (S n) x = (INR n + 1) * (LP n x - x * LP (S n) x).
Proof.
  induction n as [|n [A C]].
  - rewrite LP1, LP0. cbn. split; ring.
  - assert (A' : x * dLP (S (S n)) x - dLP (S n) x = (INR (S n) + 1) * LP (S (S n)) x).
    { rewrite (dLP_S (S n)), S_INR. replace ((INR n + 1 + 1) * LP (S (S n)) x) with ((INR n + 2) * LP (S (S n)) x) by ring. rewrite LP_rec.
      replace (x * ((INR n + 1 + 1) * LP (S n) x + x * dLP (S n) x) - dLP (S n) x) with
        ((INR n + 2) * x * LP (S n) x - (1 - x * x) * dLP (S n) x) by ring. rewrite C. ring. }
    split; [ exact A' | ].
    assert (x * dLP (S (S n)) x = dLP (S n) x + (INR (S n) + 1) * LP (S (S n)) x) by lra.
    transitivity (dLP (S (S n)) x - x * (x * dLP (S (S n)) x)); [ ring | ]. rewrite H, (dLP_S (S n)). ring.
Qed.
Lemma dLP_rec n x : (INR n + 2) * dLP (S (S n)) x = (2 * INR n + 3) * (LP (S n) x + x * dLP (S n) x) - (INR n + 1) * dLP n x.
Proof.
  destruct (dLP_a n x) as [A _]. rewrite (dLP_S (S n)), S_INR.
  replace (dLP n x) with (x * dLP (S n) x - (INR n + 1) * LP (S n) x) by lra. ring.
Qed.
Lemma LP_derive n (x : R) : is_derive (LP n) x (dLP n x).
Proof.
  revert n. apply two_step.
  - apply (is_derive_ext (fun _ => 1)); [ intros; symmetry; apply LP0 | ]. cbn. apply @is_derive_const.
  - apply (is_derive_ext (fun x => x)); [ intros; symmetry; apply LP1 | ]. replace (dLP 1 x) with 1 by (rewrite dLP_S, LP0; cbn [INR dLP]; ring). apply @is_derive_id.
  - intros n H0 H1. pose proof (pos_INR n).
    apply (is_derive_ext (fun t => ((2 * INR n + 3) * t * LP (S n) t - (INR n + 1) * LP n t) / (INR n + 2))).
    { intros t. symmetry. apply LP_SS. }
    replace (dLP (S (S n)) x) with (((2 * INR n + 3) * LP (S n) x + (2 * INR n + 3) * x * dLP (S n) x - (INR n + 1) * dLP n x) / (INR n + 2)).
    + auto_derive; [ repeat split; try (eexists; eassumption) | ].
      uneta. rewrite (is_derive_unique _ _ _ H0), (is_derive_unique _ _ _ H1). field. lra.
    + apply (Rmult_eq_reg_l (INR n + 2)); [ | lra ]. rewrite dLP_rec. field. lra.
Qed.
Lemma LP_cont n (x : R) : continuous (LP n) x.
Proof. apply (ex_derive_continuous (LP n)). exists (dLP n x). apply LP_derive. Qed.
Lemma LP_at_1 n : LP n 1 = 1.
Proof.
  revert n. apply two_step; [ apply LP0 | apply LP1 | ]. intros n H0 H1. rewrite LP_SS, H0, H1. pose proof (pos_INR n). field. lra.
Qed.
Lemma LP_at_m1 n : LP n (-1) = (-1) ^ n.
Proof.
  revert n. apply two_step; [ apply LP0 | rewrite LP1; ring | ]. intros n H0 H1. rewrite LP_SS, H0, H1. pose proof (pos_INR n). cbn [pow]. field. lra.
Qed.

(* Christoffel-Darboux, with m+1 terms *)
Lemma CD m x y : (x - y) * sum (fun k => (2 * INR k + 1) * (LP k x * LP k y)) (S m) = (INR m + 1) * (LP (S m) x * LP m y - LP m x * LP (S m) y).
Proof.
  induction m as [|m IH].
  - rewrite sum_S. unfold sum. cbn [seq map fold_right]. rewrite !LP0, !LP1. cbn [INR]. ring.
  - rewrite sum_S, Rmult_plus_distr_l, IH. rewrite S_INR.
    replace ((INR m + 1 + 1) * (LP (S (S m)) x * LP (S m) y - LP (S m) x * LP (S (S m)) y))
      with (((INR m + 2) * LP (S (S m)) x) * LP (S m) y - LP (S m) x * ((INR m + 2) * LP (S (S m)) y)) by ring.
    rewrite !LP_rec. ring.
Qed.
Lemma CD_diag m x : sum (fun k => (2 * INR k + 1) * (LP k x * LP k x)) (S m) = (INR m + 1) * (dLP (S m) x * LP m x - dLP m x * LP (S m) x).
Proof.
  induction m as [|m IH].
  - rewrite sum_S. unfold sum. cbn [seq map fold_right dLP]. rewrite !LP0, !LP1. cbn [INR]. ring.
  - rewrite sum_S, IH. rewrite S_INR.
    replace ((INR m + 1 + 1) * (dLP (S (S m)) x * LP (S m) x - dLP (S m) x * LP (S (S m)) x))
      with (((INR m + 2) * dLP (S (S m)) x) * LP (S m) x - dLP (S m) x * ((INR m + 2) * LP (S (S m)) x)) by ring.
    rewrite LP_rec, dLP_rec. ring.
Qed.
Lemma CD_pos m x : 0 < sum (fun k => (2 * INR k + 1) * (LP k x * LP k x)) (S m).
Proof.
  apply (sum_pos _ _ 0%nat).
  - intros k _. pose proof (pos_INR k). apply Rmult_le_pos; [ lra | apply Rle_0_sqr ].
  - lia.
  - rewrite LP0. cbn [INR]. lra.
Qed.
(* at a root of P_{m+1} *)
Lemma root_kernel m x : LP (S m) x = 0 ->
  sum (fun k => (2 * INR k + 1) * (LP k x * LP k x)) (S m) = (1 - x * x) * (dLP (S m) x * dLP (S m) x).
Proof.
  intros H. rewrite CD_diag, H. destruct (dLP_a m x) as [_ C]. rewrite H in C.
  replace ((1 - x * x) * (dLP (S m) x * dLP (S m) x)) with (((1 - x * x) * dLP (S m) x) * dLP (S m) x) by ring. rewrite C. ring.
Qed.
Lemma root_inside m x : LP (S m) x = 0 -> -1 < x < 1 /\ dLP (S m) x <> 0.
Proof.
  intros H. pose proof (CD_pos m x) as K. rewrite (root_kernel m x H) in K.
  assert (D : dLP (S m) x <> 0) by (intros E; rewrite E in K; lra). split; [ | exact D ].
  assert (0 < dLP (S m) x * dLP (S m) x) by nra. assert (0 < 1 - x * x) by nra. nra.
Qed.

(* integrals over (-1, 1) *)
Lemma LP_int n : (1 <= n)%nat -> is_RInt (LP n) (-1) 1 0.
Proof.
  intros H. destruct n as [|n]; [ lia | ]. pose proof (pos_INR n).
  assert (Hd : forall x, is_derive (fun t => (LP (S (S n)) t - LP n t) / (2 * INR n + 3)) x (LP (S n) x)).
  { intros x. pose proof (LP_derive (S (S n)) x) as A. pose proof (LP_derive n x) as B.
    replace (LP (S n) x) with ((dLP (S (S n)) x - dLP n x) / (2 * INR n + 3)).
    - auto_derive; [ repeat split; try (eexists; eassumption) | ]. uneta. rewrite (is_derive_unique _ _ _ A), (is_derive_unique _ _ _ B). field. lra.
    - destruct (dLP_a n x) as [C _]. rewrite (dLP_S (S n)), S_INR. apply (Rmult_eq_reg_r (2 * INR n + 3)); [ | lra ]. unfold Rdiv. rewrite Rmult_assoc, Rinv_l, Rmult_1_r by lra. lra. }
  replace 0 with (minus ((LP (S (S n)) 1 - LP n 1) / (2 * INR n + 3)) ((LP (S (S n)) (-1) - LP n (-1)) / (2 * INR n + 3))).
  - apply (is_RInt_derive (fun t => (LP (S (S n)) t - LP n t) / (2 * INR n + 3))).
    + intros x _. apply Hd.
    + intros x _. apply LP_cont.
  - rewrite !LP_at_1, !LP_at_m1. unfold minus, plus, opp; cbn. field. lra.
Qed.
Lemma xLP n x : x * LP (S n) x = ((INR n + 2) * LP (S (S n)) x + (INR n + 1) * LP n x) / (2 * INR n + 3).
Proof. pose proof (pos_INR n). rewrite LP_rec. field. lra. Qed.
Lemma LP_orth k : forall n, (k < n)%nat -> is_RInt (fun x => x ^ k * LP n x) (-1) 1 0.
Proof.
  induction k as [|k IH]; intros n H.
  - apply (is_RInt_ext (LP n)); [ intros; cbn; ring | ]. apply LP_int. lia.
  - destruct n as [|n]; [ lia | ]. pose proof (pos_INR n).
    apply (is_RInt_ext (fun x => plus (scal ((INR n + 2) / (2 * INR n + 3)) (x ^ k * LP (S (S n)) x)) (scal ((INR n + 1) / (2 * INR n + 3)) (x ^ k * LP n x)))).
    { intros x _. unfold plus, scal; cbn. unfold mult; cbn.
      transitivity (x ^ k * (x * LP (S n) x)); [ rewrite xLP; field; lra | ring ]. }
    replace 0 with (plus (scal ((INR n + 2) / (2 * INR n + 3)) 0) (scal ((INR n + 1) / (2 * INR n + 3)) 0)) by (unfold plus, scal; cbn; unfold mult; cbn; ring).
    apply @is_RInt_plus; apply @is_RInt_scal; apply IH; lia.
Qed.
