(* Exactness of the Gauss-Legendre rule with the weights 2/((1-x^2) P_n'(x)^2). *)
From Coq Require Import Reals Lra Lia.
From Coquelicot Require Import Coquelicot.
From Verif Require Import Common ArrayLib GridSpec GridPropsLemmas PermPropsLemmas PotentialSpec PotentialPropsLemmas LegendreMath LegendreRoots MatrixInverse.
Open Scope R_scope.

Definition gl_weight (n : nat) (t : R) : R := 2 / ((1 - t * t) * (dLP n t * dLP n t)).
Section Rule.
Variables (m : nat) (r : nat -> R).
Let n := S m.
Hypothesis Hr : forall i, (i < n)%nat -> LP n (r i) = 0.
Hypothesis Hd : forall i j, (i < n)%nat -> (j < n)%nat -> i <> j -> r i <> r j.
Let w i := gl_weight n (r i).

Lemma gl_w_pos i : (i < n)%nat -> 0 < w i.
Proof.
  intros Hi. unfold w, gl_weight. apply Rdiv_lt_0_compat; [ lra | ]. pose proof (CD_pos m (r i)) as K. rewrite (root_kernel m _ (Hr i Hi)) in K. exact K.
Qed.
Lemma gl_discrete j : (j < n)%nat -> sum (fun i => w i * LP j (r i)) n = if Nat.eqb j 0 then 2 else 0.
Proof.
  intros Hj.
  assert (H : forall i k, (i < n)%nat -> (k < n)%nat ->
    sum (fun l => w i * LP l (r i) * ((2 * INR l + 1) / 2 * LP l (r k))) n = if Nat.eqb i k then 1 else 0).
  { intros i k Hi Hk.
    rewrite (sum_ext _ (fun l => w i / 2 * ((2 * INR l + 1) * (LP l (r i) * LP l (r k))))) by (intros l _; field).
    rewrite sum_scal. destruct (Nat.eqb_spec i k) as [->|N].
    - unfold n. rewrite (root_kernel m _ (Hr k Hk)). pose proof (CD_pos m (r k)) as K. rewrite (root_kernel m _ (Hr k Hk)) in K.
      unfold w, gl_weight, n. field. split; intros E; rewrite E in K; lra.
    - pose proof (CD m (r i) (r k)) as K. fold n in K. rewrite (Hr i Hi), (Hr k Hk) in K.
      assert (r i - r k <> 0) by (pose proof (Hd i k Hi Hk N); lra).
      assert (E : sum (fun k0 => (2 * INR k0 + 1) * (LP k0 (r i) * LP k0 (r k))) n = 0).
      { apply (Rmult_eq_reg_l (r i - r k)); [ rewrite K; ring | assumption ]. }
      rewrite E. ring. }
  pose proof (@inverse_sides n (fun i l => w i * LP l (r i)) (fun l k => (2 * INR l + 1) / 2 * LP l (r k)) H 0 j) as Q.
  assert (0 < n)%nat by (unfold n; lia). specialize (Q H0 Hj). cbn beta in Q.
  rewrite (sum_ext _ (fun k => / 2 * (w k * LP j (r k)))) in Q.
  - rewrite sum_scal in Q. rewrite Nat.eqb_sym. destruct (Nat.eqb 0 j); lra.
  - intros i _. rewrite LP0. cbn [INR]. field.
Qed.
Definition exact_for (f : R -> R) : Prop := is_RInt f (-1) 1 (sum (fun i => w i * f (r i)) n).
Lemma exact_ext f g : (forall x, f x = g x) -> exact_for f -> exact_for g.
Proof.
  unfold exact_for. intros E H. rewrite (sum_ext _ (fun i => w i * f (r i))) by (intros i _; rewrite E; reflexivity).
  apply (is_RInt_ext f); [ intros; apply E | exact H ].
Qed.
Lemma exact_lin a f b g : exact_for f -> exact_for g -> exact_for (fun x => a * f x + b * g x).
Proof.
  unfold exact_for. intros Hf Hg.
  rewrite (sum_ext _ (fun i => a * (w i * f (r i)) + b * (w i * g (r i)))) by (intros i _; ring).
  rewrite sum_plus, !sum_scal.
  apply (is_RInt_plus (fun x => a * f x) (fun x => b * g x)).
  - apply (is_RInt_scal f); exact Hf.
  - apply (is_RInt_scal g); exact Hg.
Qed.
Lemma exact_LP j : (j <= n)%nat -> exact_for (LP j).
Proof.
  intros Hj. unfold exact_for. destruct (Nat.eq_dec j n) as [->|N].
  - rewrite sum_zero; [ apply LP_int; unfold n; lia | ]. intros i Hi. rewrite Hr by exact Hi. ring.
  - rewrite gl_discrete by lia. destruct (Nat.eqb_spec j 0) as [->|Z].
    + apply (is_RInt_ext (fun _ => 1)); [ intros; symmetry; apply LP0 | ].
      replace 2 with (scal (1 - -1) 1) by (unfold scal; cbn; unfold mult; cbn; ring). apply (is_RInt_const (-1) 1 1).
    + apply LP_int. lia.
Qed.
Lemma exact_xLP k : forall j, (j <= n)%nat -> (j + k <= 2 * n - 1)%nat -> exact_for (fun x => x ^ k * LP j x).
Proof.
  induction k as [|k IH]; intros j Hj Hk.
  - apply (exact_ext (LP j)); [ intros; cbn; ring | ]. apply exact_LP, Hj.
  - destruct (Nat.eq_dec j n) as [->|N].
    + unfold exact_for. rewrite sum_zero; [ apply LP_orth; lia | ]. intros i Hi. rewrite Hr by exact Hi. ring.
    + destruct j as [|j].
      * apply (exact_ext (fun x => 1 * (x ^ k * LP 1 x) + 0 * (x ^ k * LP 1 x))); [ intros; rewrite LP1, LP0; cbn; ring | ].
        apply exact_lin; apply IH; unfold n; lia.
      * pose proof (pos_INR j).
        apply (exact_ext (fun x => (INR j + 2) / (2 * INR j + 3) * (x ^ k * LP (S (S j)) x) + (INR j + 1) / (2 * INR j + 3) * (x ^ k * LP j x))).
        { intros x. transitivity (x ^ k * (x * LP (S j) x)); [ rewrite xLP; field; lra | cbn; ring ]. }
        apply exact_lin; apply IH; unfold n in *; lia.
Qed.
Lemma exact_affine a b k : forall l, (l + k <= 2 * n - 1)%nat -> exact_for (fun t => t ^ l * (a * t + b) ^ k).
Proof.
  induction k as [|k IH]; intros l H.
  - apply (exact_ext (fun x => x ^ l * LP 0 x)); [ intros; rewrite LP0; cbn; ring | ]. apply exact_xLP; lia.
  - apply (exact_ext (fun t => a * (t ^ S l * (a * t + b) ^ k) + b * (t ^ l * (a * t + b) ^ k))); [ intros; cbn; ring | ].
    apply exact_lin; apply IH; lia.
Qed.
(* polynomials on (lo, hi) *)
Lemma exact_interval lo hi (c : nat -> R) d : (d <= 2 * n)%nat ->
  is_RInt (fun x => sum (fun k => c k * x ^ k) d) lo hi
    (sum (fun i => (hi - lo) / 2 * w i * sum (fun k => c k * ((hi - lo) * (r i + 1) / 2 + lo) ^ k) d) n).
Proof.
  intros Hd'. set (a := (hi - lo) / 2). set (b := (hi + lo) / 2).
  assert (H : exact_for (fun t => sum (fun k => c k * (a * t + b) ^ k) d)).
  { revert Hd'. induction d as [|d IH]; intros Hle.
    - apply (exact_ext (fun t => 0 * (t ^ 0 * (a * t + b) ^ 0) + 0 * (t ^ 0 * (a * t + b) ^ 0))); [ intros; unfold sum; cbn; ring | ].
      apply exact_lin; apply exact_affine; unfold n; lia.
    - apply (exact_ext (fun t => 1 * sum (fun k => c k * (a * t + b) ^ k) d + c d * (t ^ 0 * (a * t + b) ^ d))); [ intros; rewrite sum_S; cbn; ring | ].
      apply exact_lin; [ apply IH; lia | apply exact_affine; lia ]. }
  unfold exact_for in H.
  destruct (Req_dec hi lo) as [E|NE].
  { subst hi. rewrite sum_zero; [ apply @is_RInt_point | ]. intros i _. replace a with 0 by (unfold a; lra). rewrite !Rmult_0_l. reflexivity. }
  assert (Na : a <> 0) by (unfold a; lra).
  pose proof (is_RInt_comp_lin (fun t => sum (fun k => c k * (a * t + b) ^ k) d) (/ a) (- b / a) lo hi) as L.
  assert (E1 : / a * lo + - b / a = -1) by (unfold a, b; field; lra).
  assert (E2 : / a * hi + - b / a = 1) by (unfold a, b; field; lra).
  rewrite E1, E2 in L. specialize (L _ H). apply (is_RInt_scal _ lo hi a) in L.
  match goal with |- is_RInt _ _ _ ?v => replace v
    with (scal a (sum (fun i => w i * sum (fun k => c k * (a * r i + b) ^ k) d) n)) end.
  - eapply is_RInt_ext; [ | exact L ]. intros x _. unfold scal; cbn. unfold mult; cbn.
    rewrite <- Rmult_assoc, Rinv_r, Rmult_1_l by exact Na. apply sum_ext. intros k _. f_equal. f_equal. field. exact Na.
  - match goal with |- scal ?x ?y = ?z => change (x * y = z) end. rewrite <- sum_scal. apply sum_ext. intros i _. rewrite <- Rmult_assoc. f_equal.
    apply sum_ext. intros k _. f_equal. f_equal. unfold a, b. field.
Qed.
End Rule.
