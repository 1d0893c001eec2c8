(* The two built-in interactions are the documented ones: C68. *)
From Coq Require Import Reals Lra.
From Coquelicot Require Import Coquelicot.
From Verif Require Import Common PWModel SwpModel PotentialModel PotentialSpec InteractionSpec.
From Verif Require InteractionValue.
Open Scope R_scope.

(* C68: Malfliet-Tjon.  For positive momenta the six numbers are 2 pi times the integral over the cosine of the
   scattering angle of the documented Yukawa potential: I in 1S0 (J = 0), III in 3S1 (J = 1), nothing elsewhere. *)
Theorem C68_malfliet_tjon qi qo cpl S J T Tz : 0 < qi -> 0 < qo ->
  exists V, malfliet_tjon qi qo cpl S J T Tz = Ok V /\ length V = 6%nat /\
   forall k v, nth_error V k = Some v ->
     is_RInt (fun x => 2 * PI * match J, k with 0%Z, 0%nat => mt_I (q2 qi qo x) | 1%Z, 2%nat => mt_III (q2 qi qo x) | _, _ => 0 end)
             (-1) 1 v.
Proof. exact (InteractionValue.mt_values qi qo cpl S J T Tz). Qed.
Print Assumptions C68_malfliet_tjon.
(* C68: LO_internal.  With the angular nodes z and weights wz, every number of the model is the regulated one-pion
   exchange in that partial wave plus the S-wave contact; waves that do not exist are zero. *)
Theorem C68_leading_order z wz qi qo cpl S J T Tz : length wz = length z -> (0 <= J <= 100)%Z ->
  exists V, LO_internal z wz qi qo cpl S J T Tz = Ok V /\ length V = 6%nat /\
    (forall k, exists_wave (Z.to_nat J) k -> nth_error V k = Some (leading_order z wz MN (Z.to_nat J) qi qo k)) /\
    (forall k, (k < 6)%nat -> ~ exists_wave (Z.to_nat J) k -> nth_error V k = Some 0).
Proof. exact (InteractionValue.lo_values z wz qi qo cpl S J T Tz). Qed.
Print Assumptions C68_leading_order.
(* Non-vacuity: 1S0 with one angular node x = 1 of weight 2 and equal momenta p = p' = 450: no momentum transfer, so
   pion exchange vanishes and the contact remains; and the Malfliet-Tjon potential is repulsive at short range. *)
Example C68_example : exists_wave 0 0 /\ exists_wave 0 5 /\ ~ exists_wave 0 3 /\ exists_wave 1 3 /\
  leading_order [1] [2] 938 0 450 450 0 = (-0.112927 / 100) * leg 938 450 * leg 938 450 / (2 * PI) ^ 3 /\
  tau 0 1 = -3 /\ tau 1 1 = 1 /\ mt_III 0 < 0 /\ 0 < mt_III 10000000.
Proof.
  unfold exists_wave. repeat split; try lia; try reflexivity.
  - unfold leading_order, tensor_wave, angular, q2, contact. f_equal. f_equal. f_equal. unfold GridSpec.sum, at_. cbn. ring.
  - unfold mt_III, yukawa, hbar_c. pose proof PI_RGT_0 as Hp.
    assert (Hq : 0 < PI * PI) by (apply Rmult_lt_0_compat; assumption).
    replace (1438.720 / 197.327 / (2 * (PI * PI) * (0 + 3.110 * 197.327 * (3.110 * 197.327))) -
             626.885 / 197.327 / (2 * (PI * PI) * (0 + 1.550 * 197.327 * (1.550 * 197.327))))
      with (/ (PI * PI) * (1438.720 / 197.327 / (2 * (3.110 * 197.327 * (3.110 * 197.327))) -
             626.885 / 197.327 / (2 * (1.550 * 197.327 * (1.550 * 197.327))))) by (field; lra).
    assert (0 < / (PI * PI)) by (apply Rinv_0_lt_compat; exact Hq).
    match goal with |- _ * ?b < 0 => assert (Hb : b < 0) by lra; generalize dependent b end. intros b Hb.
    replace 0 with (/ (PI * PI) * 0) by ring. apply Rmult_lt_compat_l; assumption.
  - unfold mt_III, yukawa, hbar_c. pose proof PI_RGT_0 as Hp.
    assert (Hq : 0 < PI * PI) by (apply Rmult_lt_0_compat; assumption).
    replace (1438.720 / 197.327 / (2 * (PI * PI) * (10000000 + 3.110 * 197.327 * (3.110 * 197.327))) -
             626.885 / 197.327 / (2 * (PI * PI) * (10000000 + 1.550 * 197.327 * (1.550 * 197.327))))
      with (/ (PI * PI) * (1438.720 / 197.327 / (2 * (10000000 + 3.110 * 197.327 * (3.110 * 197.327))) -
             626.885 / 197.327 / (2 * (10000000 + 1.550 * 197.327 * (1.550 * 197.327))))) by (field; lra).
    assert (0 < / (PI * PI)) by (apply Rinv_0_lt_compat; exact Hq).
    match goal with |- 0 < _ * ?b => assert (Hb : 0 < b) by lra end. apply Rmult_lt_0_compat; assumption.
Qed.
