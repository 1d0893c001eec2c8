(* Two orthonormal eigenbases of one matrix, both numbered by ascending eigenvalue inside the blocks of the matrix, agree up to
   signs (C92). *)
From Coq Require Import Reals Lra Lia.
From Verif Require Import Common GridSpec GridPropsLemmas PermPropsLemmas PotentialPropsLemmas KernelColProofs MatrixInverse.
Open Scope nat_scope.

Lemma nonzero_search (f : nat -> R) n : (exists x, x < n /\ f x <> 0%R) \/ (forall x, x < n -> f x = 0%R).
Proof.
  induction n as [|n IH]; [ right; lia | ]. destruct IH as [(x & Hx & H)|IH]; [ left; exists x; split; [ lia | exact H ] | ].
  destruct (Req_dec (f n) 0) as [E|E]; [ right | left; exists n; split; [ lia | exact E ] ].
  intros x Hx. destruct (Nat.eq_dec x n) as [->|]; [ exact E | apply IH; lia ].
Qed.
Lemma sum_nonzero f n : sum f n <> 0%R -> exists x, x < n /\ f x <> 0%R.
Proof. intros H. destruct (nonzero_search f n) as [H1|H1]; [ exact H1 | ]. exfalso. apply H, sum_zero, H1. Qed.
Lemma sum_pick (f : nat -> R) n k : k < n -> sum (fun x => f x * (if x =? k then 1 else 0))%R n = f k.
Proof. intros Hk. rewrite <- (sum_delta f n k Hk). apply sum_ext. intros x _. destruct (x =? k); lra. Qed.

Section Unique.
Variables (D : nat) (H C C' : nat -> nat -> R) (lam lam' : nat -> R) (cls : nat -> nat -> Prop) (rank : nat -> nat).
Hypothesis O1 : forall x y, x < D -> y < D -> sum (fun k => C k x * C k y)%R D = if x =? y then 1%R else 0%R.
Hypothesis O2 : forall x y, x < D -> y < D -> sum (fun k => C' k x * C' k y)%R D = if x =? y then 1%R else 0%R.
Hypothesis E1 : forall x y, x < D -> y < D -> sum (fun k => H x k * C k y)%R D = (lam y * C x y)%R.
Hypothesis E2 : forall x y, x < D -> y < D -> sum (fun k => H x k * C' k y)%R D = (lam' y * C' x y)%R.
Hypothesis Z1 : forall x y, x < D -> y < D -> C x y <> 0%R -> cls x y.
Hypothesis Z2 : forall x y, x < D -> y < D -> C' x y <> 0%R -> cls x y.
Hypothesis Csym : forall x y, x < D -> y < D -> cls x y -> cls y x.
Hypothesis Ctrans : forall x y z, x < D -> y < D -> z < D -> cls x y -> cls y z -> cls x z.
Hypothesis Rinj : forall x y, x < D -> y < D -> cls x y -> rank x = rank y -> x = y.
Hypothesis M1 : forall x y, x < D -> y < D -> cls x y -> rank x < rank y -> (lam x < lam y)%R.
Hypothesis M2 : forall x y, x < D -> y < D -> cls x y -> rank x < rank y -> (lam' x < lam' y)%R.

Lemma rows C0 : (forall x y, x < D -> y < D -> sum (fun k => C0 k x * C0 k y)%R D = if x =? y then 1%R else 0%R) ->
  forall x y, x < D -> y < D -> sum (fun k => C0 x k * C0 y k)%R D = if x =? y then 1%R else 0%R.
Proof. intros O. exact (@inverse_sides D (fun i k => C0 k i) C0 O). Qed.

Lemma H_form x y : x < D -> y < D -> H x y = sum (fun k => lam k * C x k * C y k)%R D.
Proof.
  intros Hx Hy. transitivity (sum (fun z => H x z * (if z =? y then 1 else 0))%R D); [ symmetry; apply sum_pick; exact Hy | ].
  transitivity (sum (fun z => sum (fun k => H x z * (C z k * C y k))%R D) D).
  { apply sum_ext. intros z Hz. rewrite sum_scal. rewrite (rows C O1 z y Hz Hy). reflexivity. }
  rewrite sum_comm. apply sum_ext. intros k Hk. rewrite <- (E1 x k Hx Hk). rewrite (Rmult_comm (sum _ D)), <- sum_scal. apply sum_ext. intros z _. ring.
Qed.
Lemma H_sym x y : x < D -> y < D -> H x y = H y x.
Proof. intros Hx Hy. rewrite !H_form by assumption. apply sum_ext. intros k _. ring. Qed.

Definition ov x y := sum (fun k => C k x * C' k y)%R D.
Lemma ov_eig x y : x < D -> y < D -> (lam x * ov x y = lam' y * ov x y)%R.
Proof.
  intros Hx Hy. unfold ov. rewrite <- !sum_scal.
  transitivity (sum (fun k => sum (fun z => H k z * C z x * C' k y)%R D) D).
  { apply sum_ext. intros k Hk. transitivity (C' k y * sum (fun z => H k z * C z x) D)%R; [ rewrite (E1 k x Hk Hx); ring | ].
    rewrite <- sum_scal. apply sum_ext. intros z _. ring. }
  rewrite sum_comm. apply sum_ext. intros z Hz. transitivity (C z x * sum (fun k => H z k * C' k y) D)%R; [ | rewrite (E2 z y Hz Hy); ring ].
  rewrite <- sum_scal. apply sum_ext. intros k Hk. rewrite (H_sym z k Hz Hk). ring.
Qed.
Lemma expand k y : k < D -> y < D -> C' k y = sum (fun x => C k x * ov x y)%R D.
Proof.
  intros Hk Hy. transitivity (sum (fun z => C' z y * (if z =? k then 1 else 0))%R D); [ symmetry; apply (sum_pick (fun z => C' z y)); exact Hk | ].
  transitivity (sum (fun z => sum (fun x => C z x * C k x * C' z y)%R D) D).
  { apply sum_ext. intros z Hz. rewrite <- (rows C O1 z k Hz Hk). rewrite <- sum_scal. apply sum_ext. intros x _. ring. }
  rewrite sum_comm. apply sum_ext. intros x _. unfold ov. rewrite <- sum_scal. apply sum_ext. intros z _. ring.
Qed.
Lemma expand' k x : k < D -> x < D -> C k x = sum (fun y => C' k y * ov x y)%R D.
Proof.
  intros Hk Hx. transitivity (sum (fun z => C z x * (if z =? k then 1 else 0))%R D); [ symmetry; apply (sum_pick (fun z => C z x)); exact Hk | ].
  transitivity (sum (fun z => sum (fun y => C' z y * C' k y * C z x)%R D) D).
  { apply sum_ext. intros z Hz. rewrite <- (rows C' O2 z k Hz Hk). rewrite <- sum_scal. apply sum_ext. intros y _. ring. }
  rewrite sum_comm. apply sum_ext. intros y _. unfold ov. rewrite <- sum_scal. apply sum_ext. intros z _. ring.
Qed.
Lemma partner y : y < D -> exists x, x < D /\ ov x y <> 0%R.
Proof.
  intros Hy. destruct (nonzero_search (fun x => ov x y) D) as [Hs|Hz]; [ exact Hs | exfalso ].
  assert (A := O2 y y Hy Hy). rewrite Nat.eqb_refl in A. rewrite sum_zero in A; [ lra | ]. intros k Hk. rewrite (expand k y Hk Hy).
  rewrite sum_zero; [ ring | ]. intros x Hx. rewrite (Hz x Hx). ring.
Qed.
Lemma partner' x : x < D -> exists y, y < D /\ ov x y <> 0%R.
Proof.
  intros Hx. destruct (nonzero_search (fun y => ov x y) D) as [Hs|Hz]; [ exact Hs | exfalso ].
  assert (A := O1 x x Hx Hx). rewrite Nat.eqb_refl in A. rewrite sum_zero in A; [ lra | ]. intros k Hk. rewrite (expand' k x Hk Hx).
  rewrite sum_zero; [ ring | ]. intros y Hy. rewrite (Hz y Hy). ring.
Qed.
Lemma ov_cls x y : x < D -> y < D -> ov x y <> 0%R -> cls x y /\ lam x = lam' y.
Proof.
  intros Hx Hy Hn. split.
  - destruct (sum_nonzero _ _ Hn) as (k & Hk & Hne). assert (A : C k x <> 0%R) by (intros E; apply Hne; rewrite E; ring).
    assert (B : C' k y <> 0%R) by (intros E; apply Hne; rewrite E; ring).
    apply (Ctrans x k y Hx Hk Hy); [ apply Csym; auto | auto ].
  - assert (A := ov_eig x y Hx Hy). apply (Rmult_eq_reg_r (ov x y)); assumption.
Qed.
Lemma lam_same x : x < D -> lam x = lam' x.
Proof.
  remember (rank x) as n eqn:En. revert x En. induction n as [n IH] using lt_wf_ind. intros x -> Hx.
  destruct (partner' x Hx) as (y & Hy & Hn). destruct (ov_cls x y Hx Hy Hn) as [Cy Ey].
  destruct (lt_eq_lt_dec (rank y) (rank x)) as [[Hr|Hr]|Hr].
  - exfalso. assert (A := IH _ Hr y eq_refl Hy). assert (B := M1 y x Hy Hx (Csym x y Hx Hy Cy) Hr). lra.
  - assert (x = y) as E by (apply Rinj; [ assumption | assumption | exact Cy | lia ]). congruence.
  - exfalso. assert (B := M2 x y Hx Hy Cy Hr). destruct (partner x Hx) as (z & Hz & Hnz). destruct (ov_cls z x Hz Hx Hnz) as [Cz Ez].
    destruct (lt_eq_lt_dec (rank z) (rank x)) as [[Hq|Hq]|Hq].
    + assert (A := IH _ Hq z eq_refl Hz). assert (A2 := M2 z x Hz Hx Cz Hq). lra.
    + assert (z = x) as -> by (apply Rinj; [ assumption | assumption | exact Cz | lia ]). lra.
    + assert (A2 := M1 x z Hx Hz (Csym z x Hz Hx Cz) Hq). lra.
Qed.
Lemma ov_diag x y : x < D -> y < D -> x <> y -> ov x y = 0%R.
Proof.
  intros Hx Hy Hne. destruct (Req_dec (ov x y) 0) as [E|E]; [ exact E | exfalso ]. destruct (ov_cls x y Hx Hy E) as [Cy Ey]. rewrite <- (lam_same y Hy) in Ey.
  destruct (lt_eq_lt_dec (rank x) (rank y)) as [[Hr|Hr]|Hr].
  - assert (A := M1 x y Hx Hy Cy Hr). lra.
  - apply Hne, Rinj; assumption.
  - assert (A := M1 y x Hy Hx (Csym x y Hx Hy Cy) Hr). lra.
Qed.
Lemma unique_basis :
  (forall x, x < D -> lam x = lam' x) /\
  exists s : nat -> R, (forall x, x < D -> (s x * s x = 1)%R) /\ (forall k x, k < D -> x < D -> C' k x = (s x * C k x)%R) /\
    forall x, x < D -> s x = sum (fun k => C k x * C' k x)%R D.
Proof.
  split; [ exact lam_same | ]. exists (fun x => ov x x).
  assert (HC : forall k x, k < D -> x < D -> C' k x = (ov x x * C k x)%R).
  { intros k x Hk Hx. rewrite (expand k x Hk Hx). transitivity (sum (fun z => if z =? x then C k z * ov z x else 0)%R D).
    - apply sum_ext. intros z Hz. destruct (Nat.eqb_spec z x) as [->|Hne]; [ reflexivity | ]. rewrite (ov_diag z x Hz Hx Hne). ring.
    - rewrite (sum_delta (fun z => C k z * ov z x)%R D x Hx). ring. }
  split; [ | split; [ exact HC | reflexivity ] ]. intros x Hx. assert (A := O2 x x Hx Hx). rewrite Nat.eqb_refl in A.
  rewrite <- A. transitivity (ov x x * ov x x * sum (fun k => C k x * C k x) D)%R; [ rewrite (O1 x x Hx Hx), Nat.eqb_refl; ring | ].
  rewrite <- sum_scal. apply sum_ext. intros k Hk. rewrite (HC k x Hk Hx). ring.
Qed.
End Unique.
