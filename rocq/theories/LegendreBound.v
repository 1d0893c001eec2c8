(* |P_n| <= 1 on [-1,1], and how far the roots stay away from the end points. *)
From Coq Require Import Reals Lra Lia.
From Coquelicot Require Import Coquelicot.
From Verif Require Import Common ArrayLib GridSpec GridPropsLemmas PermPropsLemmas PotentialSpec PotentialPropsLemmas LegendreMath LegendreRoots.
Open Scope R_scope.

Lemma sum_head (f : nat -> R) n : sum f (S n) = f 0%nat + sum (fun k => f (S k)) n.
Proof. unfold sum. cbn [seq map fold_right]. f_equal. rewrite <- seq_shift, map_map. reflexivity. Qed.
Fixpoint ddLP (n : nat) (x : R) : R := match n with O => 0 | S m => (INR m + 2) * dLP m x + x * ddLP m x end.
Lemma dLP_derive n (x : R) : is_derive (dLP n) x (ddLP n x).
Proof.
  induction n as [|n IH]; [ apply @is_derive_const | ].
  apply (is_derive_ext (fun t => (INR n + 1) * LP n t + t * dLP n t)); [ reflexivity | ].
  pose proof (LP_derive n x) as H0. cbn [ddLP].
  replace ((INR n + 2) * dLP n x + x * ddLP n x) with ((INR n + 1) * dLP n x + (1 * dLP n x + x * ddLP n x)) by ring.
  auto_derive; [ repeat split; try (eexists; eassumption) | ].
  change (Derive (fun y => dLP n y) x) with (Derive (dLP n) x). uneta.
  rewrite (is_derive_unique _ _ _ H0), (is_derive_unique _ _ _ IH). ring.
Qed.
Lemma deriv1 (d : R -> R) (x dd : R) : is_derive d x dd -> is_derive (fun t => (1 - t * t) * d t) x (- 2 * x * d x + (1 - x * x) * dd).
Proof.
  intros D. auto_derive; [ repeat split; try (eexists; eassumption) | ].
  change (Derive (fun y => d y) x) with (Derive d x). rewrite (is_derive_unique _ _ _ D). ring.
Qed.
Lemma deriv2 (p d : R -> R) (t dd N : R) : N <> 0 -> is_derive p t (d t) -> is_derive d t dd ->
  is_derive (fun t => p t * p t + (1 - t * t) * (d t * d t) / N) t
    (2 * (d t * p t) + (- 2 * t * (d t * d t) + 2 * (((1 - t * t) * dd) * d t)) / N).
Proof.
  intros HN D1 D2. auto_derive; [ repeat split; try (eexists; eassumption) | ].
  change (Derive (fun y => d y) t) with (Derive d t). change (Derive (fun y => p y) t) with (Derive p t).
  rewrite (is_derive_unique _ _ _ D1), (is_derive_unique _ _ _ D2). field. exact HN.
Qed.
(* the Legendre equation *)
Lemma LP_ode n x : (1 - x * x) * ddLP (S n) x = 2 * x * dLP (S n) x - (INR n + 1) * (INR n + 2) * LP (S n) x.
Proof.
  assert (H : forall t, (1 - t * t) * dLP (S n) t = (INR n + 1) * (LP n t - t * LP (S n) t)) by (intros t; apply dLP_a).
  assert (A : is_derive (fun t => (1 - t * t) * dLP (S n) t) x (- 2 * x * dLP (S n) x + (1 - x * x) * ddLP (S n) x)).
  { apply deriv1, dLP_derive. }
  assert (B : is_derive (fun t => (INR n + 1) * (LP n t - t * LP (S n) t)) x ((INR n + 1) * (dLP n x - (LP (S n) x + x * dLP (S n) x)))).
  { pose proof (LP_derive (S n) x) as D. pose proof (LP_derive n x) as D'. auto_derive; [ repeat split; try (eexists; eassumption) | ].
    uneta. rewrite (is_derive_unique _ _ _ D), (is_derive_unique _ _ _ D'). ring. }
  assert (E : - 2 * x * dLP (S n) x + (1 - x * x) * ddLP (S n) x = (INR n + 1) * (dLP n x - (LP (S n) x + x * dLP (S n) x))).
  { rewrite <- (is_derive_unique _ _ _ A), <- (is_derive_unique _ _ _ B). apply Derive_ext. exact H. }
  destruct (dLP_a n x) as [C _]. assert (dLP n x = x * dLP (S n) x - (INR n + 1) * LP (S n) x) by lra. rewrite H0 in E.
  replace ((1 - x * x) * ddLP (S n) x) with ((- 2 * x * dLP (S n) x + (1 - x * x) * ddLP (S n) x) + 2 * x * dLP (S n) x) by ring. rewrite E. ring.
Qed.
Lemma LP_odd n x : LP n (- x) = (-1) ^ n * LP n x.
Proof.
  revert n. apply two_step; [ rewrite !LP0; cbn; ring | rewrite !LP1; cbn; ring | ]. intros n H0 H1. rewrite !LP_SS, H0, H1. cbn [pow].
  pose proof (pos_INR n). field. lra.
Qed.
Lemma LP_bound_pos n x : 0 <= x <= 1 -> LP n x * LP n x <= 1.
Proof.
  intros Hx. destruct n as [|n]; [ rewrite LP0; lra | ].
  set (N := (INR n + 1) * (INR n + 2)). pose proof (pos_INR n). assert (HN : 0 < N) by (unfold N; nra).
  set (F := fun t => LP (S n) t * LP (S n) t + (1 - t * t) * (dLP (S n) t * dLP (S n) t) / N).
  assert (D : forall t, is_derive F t (2 * t * (dLP (S n) t * dLP (S n) t) / N)).
  { intros t. unfold F. pose proof (LP_derive (S n) t) as D1. pose proof (dLP_derive (S n) t) as D2.
    replace (2 * t * (dLP (S n) t * dLP (S n) t) / N) with
      (2 * (dLP (S n) t * LP (S n) t) + (- 2 * t * (dLP (S n) t * dLP (S n) t) + 2 * (((1 - t * t) * ddLP (S n) t) * dLP (S n) t)) / N).
    - apply deriv2; [ lra | exact D1 | exact D2 ].
    - rewrite LP_ode. fold N. field. lra. }
  assert (M : F x <= F 1).
  { destruct (Req_dec x 1) as [->|Nx]; [ lra | ].
    destruct (MVT_gen F x 1 (fun t => 2 * t * (dLP (S n) t * dLP (S n) t) / N)) as (c & [C1 C2] & E).
    - intros t _. apply D.
    - intros t _. apply continuity_pt_filterlim. apply (ex_derive_continuous F). eexists. apply D.
    - rewrite Rmin_left, Rmax_right in * by lra.
      assert (0 <= 2 * c * (dLP (S n) c * dLP (S n) c) / N).
      { apply Rmult_le_pos; [ | left; apply Rinv_0_lt_compat, HN ]. assert (0 <= dLP (S n) c * dLP (S n) c) by apply Rle_0_sqr. nra. }
      assert (0 <= 1 - x) by lra. pose proof (Rmult_le_pos _ _ H0 H1). lra. }
  assert (F1 : F 1 = 1) by (unfold F; rewrite LP_at_1; unfold Rdiv; ring).
  assert (0 <= (1 - x * x) * (dLP (S n) x * dLP (S n) x) / N).
  { apply Rmult_le_pos; [ | left; apply Rinv_0_lt_compat, HN ]. apply Rmult_le_pos; [ nra | apply Rle_0_sqr ]. }
  unfold F in M at 1. lra.
Qed.
Lemma LP_bound n x : -1 <= x <= 1 -> Rabs (LP n x) <= 1.
Proof.
  intros Hx. assert (S : LP n x * LP n x <= 1).
  { destruct (Rle_dec 0 x) as [P|P]; [ apply LP_bound_pos; lra | ].
    pose proof (LP_bound_pos n (- x) ltac:(lra)) as B. rewrite LP_odd in B.
    replace ((-1) ^ n * LP n x * ((-1) ^ n * LP n x)) with (((-1) ^ n * (-1) ^ n) * (LP n x * LP n x)) in B by ring. rewrite pow_m1_sq in B. lra. }
  apply Rabs_le. nra.
Qed.
Lemma dLP_bound n x : -1 <= x <= 1 -> Rabs (dLP n x) <= INR n * INR n.
Proof.
  intros Hx. induction n as [|n IH]; [ cbn; rewrite Rabs_R0; lra | ].
  rewrite dLP_S, S_INR. pose proof (pos_INR n). apply Rle_trans with (1 := Rabs_triang _ _). rewrite !Rabs_mult.
  rewrite (Rabs_pos_eq (INR n + 1)) by lra. pose proof (LP_bound n x Hx). assert (Rabs x <= 1) by (apply Rabs_le; lra).
  pose proof (Rabs_pos x). pose proof (Rabs_pos (dLP n x)). nra.
Qed.
Lemma root_margin m x : LP (S m) x = 0 -> Rabs x <= 1 - / (2 * (INR (S m) * INR (S m)) * (INR (S m) * INR (S m))).
Proof.
  intros H. destruct (root_inside m x H) as [I D]. pose proof (root_kernel m x H) as K.
  assert (K1 : 1 <= sum (fun k => (2 * INR k + 1) * (LP k x * LP k x)) (S m)).
  { rewrite sum_head.
    assert (0 <= sum (fun k => (2 * INR (S k) + 1) * (LP (S k) x * LP (S k) x)) m).
    { apply sum_nonneg. intros i _. pose proof (pos_INR (S i)). apply Rmult_le_pos; [ lra | apply Rle_0_sqr ]. }
    assert (E0 : (2 * INR 0 + 1) * (LP 0 x * LP 0 x) = 1) by (rewrite LP0; change (INR 0) with 0; ring). rewrite E0. lra. }
  rewrite K in K1. pose proof (dLP_bound (S m) x ltac:(lra)) as B. set (n := INR (S m)) in *.
  assert (Hn : 1 <= n) by (unfold n; rewrite S_INR; pose proof (pos_INR m); lra).
  assert (B2 : dLP (S m) x * dLP (S m) x <= (n * n) * (n * n)).
  { rewrite <- (Rabs_pos_eq (dLP (S m) x * dLP (S m) x)) by apply Rle_0_sqr. rewrite Rabs_mult. apply Rmult_le_compat; try apply Rabs_pos; exact B. }
  set (q := (n * n) * (n * n)) in *. assert (Hq : 1 <= q) by (unfold q; clearbody n; clear - Hn; assert (1 <= n * n) by nra; nra).
  assert (A : / q <= 1 - x * x).
  { apply (Rmult_le_reg_r q); [ lra | ]. rewrite Rinv_l by lra. apply Rle_trans with (1 := K1).
    apply Rmult_le_compat_l; [ nra | exact B2 ]. }
  replace (/ (2 * (n * n) * (n * n))) with (/ q / 2) by (unfold q; field; lra).
  assert (Sq : Rabs x * Rabs x = x * x) by (rewrite <- Rabs_mult; apply Rabs_pos_eq, Rle_0_sqr).
  assert (Rabs x < 1) by (apply Rabs_def1; lra). pose proof (Rabs_pos x). nra.
Qed.
