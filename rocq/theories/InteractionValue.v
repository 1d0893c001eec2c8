From Coq Require Import Reals Lra Lia ZArith ZifyBool Psatz List.
From Coquelicot Require Import Coquelicot.
From Verif Require Import Common ArrayLib PWModel PWSpec SwpModel GridSpec GridPropsLemmas
  PotentialModel PotentialSpec PotentialProofs PotentialMatProofs InteractionProofs InteractionSpec.
From Verif Require PotentialPropsLemmas.
Import ListNotations.
Open Scope R_scope.

(* ---------- Malfliet-Tjon ---------- *)
Lemma yukawa_int V mu p p' : 0 < p -> 0 < p' -> 0 < mu ->
  is_RInt (fun x => 2 * PI * yukawa V mu (q2 p p' x)) (-1) 1
          (mt_term V (mu * hbar_c) p p' / (2 * PI * p * p')).
Proof.
  intros Hp Hp' Hm. assert (Hh : 0 < hbar_c) by (unfold hbar_c; lra). pose proof PI_RGT_0 as Hpi.
  set (m := mu * hbar_c). assert (Hm1 : 0 < m) by (apply Rmult_lt_0_compat; assumption). assert (Hmm : 0 < m * m) by (apply Rmult_lt_0_compat; assumption).
  set (D := fun x => q2 p p' x + m * m).
  assert (HD : forall x, -1 <= x <= 1 -> 0 < D x).
  { intros x Hx. pose proof (Rle_0_sqr (p - p')) as H1. unfold Rsqr in H1.
    assert (H2 : 0 <= p * p' * (1 - x)) by (apply Rmult_le_pos; [ apply Rlt_le, Rmult_lt_0_compat; assumption | lra ]).
    replace (D x) with ((p - p') * (p - p') + 2 * (p * p' * (1 - x)) + m * m) by (unfold D, q2; ring). lra. }
  assert (HDc : forall x, Rmin (-1) 1 <= x <= Rmax (-1) 1 -> 0 < D x).
  { intros x Hx. rewrite Rmin_left, Rmax_right in Hx by lra. apply HD. exact Hx. }
  assert (E : mt_term V m p p' / (2 * PI * p * p') =
              minus (- (V / hbar_c) / (2 * PI * p * p') * ln (D 1)) (- (V / hbar_c) / (2 * PI * p * p') * ln (D (-1)))).
  { unfold mt_term, minus, plus, opp. cbn. change PotentialModel.hbarc with (197327 / 1000).
    replace (197327 / 1000) with hbar_c by (unfold hbar_c; lra).
    replace ((p' + p) * (p' + p) + m * m) with (D (-1)) by (unfold D, q2; ring).
    replace ((p' - p) * (p' - p) + m * m) with (D 1) by (unfold D, q2; ring).
    rewrite ln_div by (apply HD; lra). field. repeat split; lra. }
  rewrite E.
  apply (@is_RInt_derive R_CompleteNormedModule (fun x => - (V / hbar_c) / (2 * PI * p * p') * ln (D x))).
  - intros x Hx. apply HDc in Hx. unfold D, q2 in *. auto_derive; [ exact Hx | ].
    unfold yukawa. fold m. unfold q2. field. repeat split; try lra.
  - intros x Hx. apply HDc in Hx. apply (ex_derive_continuous (fun x => 2 * PI * yukawa V mu (q2 p p' x))).
    unfold yukawa. fold m. unfold D, q2 in *. auto_derive.
    assert (0 < 2 * (PI * PI) * (p * p + p' * p' - 2 * p * p' * x + m * m)) by (apply Rmult_lt_0_compat; [ pose proof (Rmult_lt_0_compat _ _ Hpi Hpi); lra | exact Hx ]). lra.
Qed.

Lemma mt_values qi qo cpl S J T Tz : 0 < qi -> 0 < qo ->
  exists V, malfliet_tjon qi qo cpl S J T Tz = Ok V /\ length V = 6%nat /\
   forall k v, nth_error V k = Some v ->
     is_RInt (fun x => 2 * PI * match J, k with 0%Z, 0%nat => mt_I (q2 qi qo x) | 1%Z, 2%nat => mt_III (q2 qi qo x) | _, _ => 0 end)
             (-1) 1 v.
Proof.
  intros Hi Ho. exists (mt6 qi qo J). rewrite mt_ok. split; [ reflexivity | ].
  assert (Z0 : is_RInt (fun _ : R => 2 * PI * 0) (-1) 1 0).
  { apply (is_RInt_ext (fun _ => 0)); [ intros; symmetry; apply Rmult_0_r | ].
    pose proof (@is_RInt_const R_NormedModule (-1) 1 0) as H. unfold scal in H; cbn in H; unfold mult in H; cbn in H.
    replace ((1 - -1) * 0) with 0 in H by ring. exact H. }
  assert (Y : forall VA, is_RInt (fun x => 2 * PI * (yukawa 1438.720 3.110 (q2 qi qo x) - yukawa VA 1.550 (q2 qi qo x))) (-1) 1
     ((mt_term 1438.720 (3.110 * hbar_c) qi qo - mt_term VA (1.550 * hbar_c) qi qo) / (2 * PI * qi * qo))).
  { intros VA. pose proof (is_RInt_minus _ _ _ _ _ _ (yukawa_int 1438.720 3.110 qi qo Hi Ho ltac:(lra)) (yukawa_int VA 1.550 qi qo Hi Ho ltac:(lra))) as H.
    unfold minus, plus, opp in H; cbn in H.
    match goal with |- is_RInt _ _ _ ?a => match type of H with is_RInt _ _ _ ?b => replace a with b by (unfold Rdiv; ring) end end.
    eapply is_RInt_ext; [ | exact H ]. intros; cbn; ring. }
  assert (Ec : hbarc = hbar_c) by (unfold hbarc, hbar_c; lra).
  unfold mt6. rewrite Ec.
  replace (513968 / 1000) with 513.968 by lra. replace (626885 / 1000) with 626.885 by lra. replace (1438720 / 1000) with 1438.720 by lra.
  replace (1550 / 1000) with 1.550 by lra. replace (3110 / 1000) with 3.110 by lra.
  destruct (J =? 0)%Z eqn:E0; [ | destruct (J =? 1)%Z eqn:E1 ].
  - assert (J = 0%Z) as -> by lia. split; [ reflexivity | ]. intros k v Hv.
    destruct k as [|[|[|[|[|[|k]]]]]]; cbn in Hv; try (injection Hv as <-); [ exact (Y 513.968) | exact Z0 .. | destruct k; discriminate ].
  - assert (J = 1%Z) as -> by lia. split; [ reflexivity | ]. intros k v Hv.
    destruct k as [|[|[|[|[|[|k]]]]]]; cbn in Hv; try (injection Hv as <-); [ exact Z0 | exact Z0 | exact (Y 626.885) | exact Z0 .. | destruct k; discriminate ].
  - split; [ reflexivity | ]. intros k v Hv.
    assert (Hz : v = 0) by (destruct k as [|[|[|[|[|[|k]]]]]]; cbn in Hv; try (injection Hv as <-; reflexivity); destruct k; discriminate).
    subst v. destruct J as [|[]|]; try lia; exact Z0.
Qed.

(* ---------- leading order ---------- *)
Lemma tau_spec L S : (S <= 1)%nat -> tau L S = iso_fac (Z.of_nat L) (Z.of_nat S).
Proof.
  intros HS. unfold tau, iso_fac.
  replace (Z.land (1 - Z.of_nat L - Z.of_nat S) 1) with (if Nat.even (L + S) then 1%Z else 0%Z).
  - destruct (Nat.even (L + S)); reflexivity.
  - match goal with |- _ = Z.land ?a _ => change (Z.land a 1) with (Z.land a (Z.ones 1)) end. rewrite Z.land_ones by lia. change (2 ^ 1)%Z with 2%Z.
    destruct (Nat.even (L + S)) eqn:E.
    + apply Nat.even_spec in E. destruct E as [m E]. replace (1 - Z.of_nat L - Z.of_nat S)%Z with (1 + (- Z.of_nat m) * 2)%Z by lia.
      rewrite Z_mod_plus_full. reflexivity.
    + rewrite <- Nat.negb_odd in E. apply Bool.negb_false_iff, Nat.odd_spec in E. destruct E as [m E].
      replace (1 - Z.of_nat L - Z.of_nat S)%Z with (0 + (- Z.of_nat m) * 2)%Z by lia. rewrite Z_mod_plus_full. reflexivity.
Qed.

Lemma pion_spec p p' x : pion (q2 p p' x) = pot_opep_mom p p' x.
Proof.
  unfold pion, pot_opep_mom. fold (q2 p p' x). unfold gA, fpi, mpi.
  replace (138039 / 1000 * (138039 / 1000)) with (138.039 ^ 2) by lra.
  unfold Rdiv at 1. rewrite <- (Rmult_1_l (/ (q2 p p' x + 138.039 ^ 2))). fold (1 / (q2 p p' x + 138.039 ^ 2)). f_equal. lra.
Qed.

Section LO.
Variables z w : list R. Variables p p' : R.
Let v x := pot_opep_mom p p' x.
Let SP n := sum (fun i => at_ w i * v (at_ z i) * P n (at_ z i)) (length w).
Lemma angular_ext f g : (forall x, f x = g x) -> angular z w f = angular z w g.
Proof. intros H. unfold angular. f_equal. apply sum_ext. intros. rewrite H. reflexivity. Qed.
Lemma ang_SP n : ang z w p p' n false = PI * SP n.
Proof. unfold ang, SP. f_equal. apply sum_ext. intros. unfold v. ring. Qed.
Lemma angular_lin f a b c d n1 n2 n3 :
  (forall x, f x = a * P n1 x + b * P n2 x + c * P n3 x + d * (x * P n1 x)) ->
  angular z w (fun x => pion (q2 p p' x) * f x) =
  2 * (a * ang z w p p' n1 false + b * ang z w p p' n2 false + c * ang z w p p' n3 false + d * ang z w p p' n1 true).
Proof.
  intros H. unfold angular, ang.
  rewrite (sum_ext _ (fun i => (((a * (at_ w i * pot_opep_mom p p' (at_ z i) * 1 * P n1 (at_ z i)) +
    b * (at_ w i * pot_opep_mom p p' (at_ z i) * 1 * P n2 (at_ z i))) +
    c * (at_ w i * pot_opep_mom p p' (at_ z i) * 1 * P n3 (at_ z i))) +
    d * (at_ w i * pot_opep_mom p p' (at_ z i) * at_ z i * P n1 (at_ z i))))).
  2:{ intros i _. rewrite H, pion_spec. ring. }
  rewrite !PotentialSymProofs.sum_plus, !sum_scal. ring.
Qed.
End LO.

Lemma lo_values z wz qi qo cpl S J T Tz : length wz = length z -> (0 <= J <= 100)%Z ->
  exists V, LO_internal z wz qi qo cpl S J T Tz = Ok V /\ length V = 6%nat /\
    (forall k, exists_wave (Z.to_nat J) k ->
       nth_error V k = Some (leading_order z wz MN (Z.to_nat J) qi qo k)) /\
    (forall k, (k < 6)%nat -> ~ exists_wave (Z.to_nat J) k -> nth_error V k = Some 0).
Proof.
  intros Hl HJ. exists (lo6 z wz MN qi qo J). rewrite lo_ok by assumption. split; [ reflexivity | ]. split; [ reflexivity | ].
  assert (Hc : forall V c : R, (V + c) * (reg qi * reg qo * rel_factor MN qi * rel_factor MN qo / (8 * PI * PI * PI)) =
              (V + c) * leg MN qi * leg MN qo / (2 * PI) ^ 3).
  { intros. unfold leg, reg, rel_factor, Lambda. cbv zeta.
    replace (- (qi / 450 * (qi / 450) * (qi / 450) * (qi / 450) * (qi / 450) * (qi / 450))) with (- (qi / 450) ^ 6) by (cbn; ring).
    replace (- (qo / 450 * (qo / 450) * (qo / 450) * (qo / 450) * (qo / 450) * (qo / 450))) with (- (qo / 450) ^ 6) by (cbn; ring).
    replace ((2 * PI) ^ 3) with (8 * PI * PI * PI) by (cbn; ring). unfold Rdiv. ring. }
  destruct (Z_of_nat_complete J ltac:(lia)) as [n Hn]. subst J. rewrite Nat2Z.id.
  assert (T0 : iso_fac (Z.of_nat n) 0 = tau n 0) by (rewrite tau_spec by lia; reflexivity).
  assert (T1 : iso_fac (Z.of_nat n) 1 = tau n 1) by (rewrite tau_spec by lia; reflexivity).
  assert (T2 : iso_fac (Z.of_nat n + 1) 1 = tau (n + 1) 1) by (rewrite tau_spec by lia; f_equal; lia).
  assert (Hr : IZR (Z.of_nat n) = INR n) by (symmetry; apply INR_IZR_INZ).
  pose proof (pos_INR n) as Hpos.
  assert (E1 : Z.to_nat (Z.of_nat n + 1) = (n + 1)%nat) by lia.
  assert (E2 : Z.to_nat (Z.of_nat n - 1) = (n - 1)%nat) by lia.
  assert (K0 : contact n 0 = if (Z.of_nat n =? 0)%Z then C1S0 else 0).
  { destruct n; cbn; [ unfold C1S0; lra | destruct n; reflexivity ]. }
  assert (K2 : contact n 2 = if (Z.of_nat n =? 1)%Z then C3S1 else 0).
  { destruct n as [|[|n]]; [ reflexivity | cbn; unfold C3S1; lra | ].
    replace (Z.of_nat (Datatypes.S (Datatypes.S n)) =? 1)%Z with false by lia. reflexivity. }
  assert (Kx : forall k, k <> 0%nat -> k <> 2%nat -> contact n k = 0).
  { intros k H0 H2. unfold contact. destruct n as [|[|n]]; [ destruct k; [ congruence | reflexivity ] | | reflexivity ].
    destruct k as [|[|[|k]]]; try congruence; reflexivity. }
  assert (W : forall k, (k < 6)%nat -> at_ (opep6 z wz qi qo (Z.of_nat n)) k =
      if (Z.of_nat n =? 0)%Z && negb (Nat.eqb k 0 || Nat.eqb k 5) then 0 else wave_tau n k * tensor_wave z wz pion n qi qo k).
  { intros k Hk. unfold opep6. rewrite iso_shift, T0, T1, T2, Hr, Nat2Z.id, E1, E2.
    destruct k as [|[|[|[|[|[|k]]]]]]; [ .. | lia ]; unfold wave_tau, tensor_wave, at_;
    destruct (Z.of_nat n =? 0)%Z; cbn [andb negb orb Nat.eqb nth]; try reflexivity;
    rewrite ?iso_shift, ?T0, ?T1, ?T2, ?Hr, ?Nat2Z.id, ?E1, ?E2.
    - rewrite (angular_lin z wz qi qo _ (- (qi * qi + qo * qo)) 0 0 (2 * qi * qo) n n n) by (intros; unfold q2; ring). ring.
    - rewrite (angular_lin z wz qi qo _ (- (qi * qi + qo * qo)) 0 0 (2 * qi * qo) n n n) by (intros; unfold q2; ring). ring.
    - rewrite (angular_lin z wz qi qo _ (qi * qi + qo * qo) (- (2 * qi * qo) * (INR n / (2 * INR n + 1)))
        (- (2 * qi * qo) * ((INR n + 1) / (2 * INR n + 1))) 0 n (n + 1) (n - 1)) by (intros; field; lra). field; lra.
    - rewrite (angular_lin z wz qi qo _ ((qi * qi + qo * qo) / (2 * INR n + 1)) (- (2 * qi * qo) / (2 * INR n + 1))
        0 0 (n - 1) n n) by (intros; field; lra). field; lra.
    - rewrite (angular_lin z wz qi qo _ (qi * qi) (qo * qo) (- (2 * qi * qo)) 0 (n + 1) (n - 1) n) by (intros; field; lra). field; lra.
    - rewrite (angular_lin z wz qi qo _ (qo * qo) (qi * qi) (- (2 * qi * qo)) 0 (n + 1) (n - 1) n) by (intros; field; lra). field; lra.
    - rewrite (angular_lin z wz qi qo _ (- (qi * qi + qo * qo) / (2 * INR n + 1)) ((2 * qi * qo) / (2 * INR n + 1))
        0 0 (n + 1) n n) by (intros; field; lra). field; lra.
    - rewrite (angular_lin z wz qi qo _ (- (qi * qi + qo * qo) / (2 * INR n + 1)) ((2 * qi * qo) / (2 * INR n + 1))
        0 0 (n + 1) n n) by (intros; field; lra). field; lra. }
  assert (U : forall k, (k < 6)%nat -> nth_error (lo6 z wz MN qi qo (Z.of_nat n)) k =
      Some ((at_ (opep6 z wz qi qo (Z.of_nat n)) k + contact n k) * leg MN qi * leg MN qo / (2 * PI) ^ 3)).
  { intros k Hk. rewrite <- Hc. unfold lo6. rewrite <- K0, <- K2.
    destruct k as [|[|[|[|[|[|k]]]]]]; [ reflexivity | | reflexivity | | | | lia ]; cbn [nth_error]; rewrite Kx, Rplus_0_r by lia; reflexivity. }
  split.
  - intros k [Hk He]. rewrite U, W by exact Hk. unfold leading_order. do 2 f_equal.
    destruct (Z.of_nat n =? 0)%Z eqn:E; [ | reflexivity ].
    destruct (He ltac:(lia)) as [-> | ->]; reflexivity.
  - intros k Hk He. rewrite U, W by exact Hk.
    assert (Hn0 : n = 0%nat /\ k <> 0%nat /\ k <> 5%nat).
    { unfold exists_wave in He. lia. }
    destruct Hn0 as (-> & H0 & H5). change (Z.of_nat 0 =? 0)%Z with true.
    replace (Nat.eqb k 0 || Nat.eqb k 5) with false by lia. cbn [negb andb].
    replace (contact 0 k) with 0 by (destruct k; [ lia | reflexivity ]). f_equal. unfold Rdiv. ring.
Qed.
