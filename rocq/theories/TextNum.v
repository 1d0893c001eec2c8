(* Decimal conversion of doubles: bounds and uniqueness. *)
From Coq Require Import String Ascii Reals Psatz.
From Flocq Require Import Core.
From Verif Require Import Common NameModel ParamsModel TextModel TextSpec.
Open Scope Z_scope.

Definition r10 : radix := Build_radix 10 eq_refl.

Lemma ilog10_f_ok f : forall n, 1 <= n < 10 ^ (Z.of_nat f + 1) -> 0 <= ilog10_f f n /\ 10 ^ ilog10_f f n <= n < 10 ^ (ilog10_f f n + 1).
Proof.
  induction f as [|f IH]; intros n Hn; cbn [ilog10_f].
  - change (Z.of_nat 0 + 1) with 1 in Hn. change (0 + 1) with 1. lia.
  - destruct (Z.ltb_spec n 10) as [H|H]; [ change (0 + 1) with 1; lia | ].
    assert (B : 1 <= n / 10 < 10 ^ (Z.of_nat f + 1)).
    { split; [ apply Z.div_le_lower_bound; lia | ]. apply Z.div_lt_upper_bound; [ lia | ].
      replace (Z.of_nat (S f) + 1) with (Z.succ (Z.of_nat f + 1)) in Hn by lia. rewrite Z.pow_succ_r in Hn by lia. lia. }
    destruct (IH _ B) as (H0 & H1 & H2). set (r := ilog10_f f (n / 10)) in *. split; [ lia | ].
    replace (1 + r) with (Z.succ r) by lia. replace (Z.succ r + 1) with (Z.succ (r + 1)) by lia. rewrite !Z.pow_succ_r by lia.
    pose proof (Z.div_mod n 10 ltac:(lia)). pose proof (Z.mod_pos_bound n 10 ltac:(lia)). lia.
Qed.
Lemma ilog10_ok n : 1 <= n -> 0 <= ilog10 n /\ 10 ^ ilog10 n <= n < 10 ^ (ilog10 n + 1).
Proof.
  intros Hn. apply ilog10_f_ok. split; [ lia | ]. pose proof (Z.log2_nonneg n). rewrite Z2Nat.id by lia.
  pose proof (Z.log2_spec n ltac:(lia)) as [_ B]. eapply Z.lt_le_trans; [ exact B | ]. apply Z.pow_le_mono_l. lia.
Qed.

Lemma bp k : 0 <= k -> bpow r10 k = IZR (10 ^ k).
Proof. intros H. rewrite <- IZR_Zpower by exact H. reflexivity. Qed.
Lemma bneg k : (bpow r10 (- k) = / bpow r10 k)%R.
Proof. apply bpow_opp. Qed.

Section Conv.
Variables num den : Z.
Hypothesis Hnum : 0 < num.
Hypothesis Hden : 0 < den.
Definition quo : R := (IZR num / IZR den)%R.
Lemma den_pos : (0 < IZR den)%R. Proof. apply IZR_lt. exact Hden. Qed.
Lemma quo_pos : (0 < quo)%R.
Proof. unfold quo. apply Rdiv_lt_0_compat; [ apply IZR_lt, Hnum | apply den_pos ]. Qed.

Lemma dec_exp_ok : (bpow r10 (dec_exp num den) <= quo < bpow r10 (dec_exp num den + 1))%R.
Proof.
  pose proof den_pos as Hd. unfold dec_exp. destruct (Z.leb_spec den num) as [H|H].
  - assert (H1 : 1 <= num / den) by (apply Z.div_le_lower_bound; lia).
    destruct (ilog10_ok _ H1) as (K0 & K1 & K2). set (k := ilog10 (num / den)) in *. rewrite !bp by lia. unfold quo.
    pose proof (Z.div_mod num den ltac:(lia)). pose proof (Z.mod_pos_bound num den Hden).
    split.
    + apply (Rmult_le_reg_r (IZR den)); [ exact Hd | ]. unfold Rdiv. rewrite Rmult_assoc, Rinv_l, Rmult_1_r by lra.
      rewrite <- mult_IZR. apply IZR_le. nia.
    + apply (Rmult_lt_reg_r (IZR den)); [ exact Hd | ]. unfold Rdiv. rewrite Rmult_assoc, Rinv_l, Rmult_1_r by lra.
      rewrite <- mult_IZR. apply IZR_lt. nia.
  - set (c := (den + num - 1) / num). assert (Hc : den <= c * num /\ (c - 1) * num < den).
    { pose proof (Z.div_mod (den + num - 1) num ltac:(lia)) as E. pose proof (Z.mod_pos_bound (den + num - 1) num Hnum). fold c in E. nia. }
    assert (H1 : 1 <= c - 1) by nia.
    destruct (ilog10_ok _ H1) as (K0 & K1 & K2). set (r := ilog10 (c - 1)) in *.
    rewrite bneg. replace (- (r + 1) + 1) with (- r) by lia. rewrite bneg, !bp by lia. unfold quo.
    assert (P0 : 0 < 10 ^ r) by (apply Z.pow_pos_nonneg; lia). assert (P1 : 0 < 10 ^ (r + 1)) by (apply Z.pow_pos_nonneg; lia).
    pose proof (IZR_lt _ _ P0) as Q0. pose proof (IZR_lt _ _ P1) as Q1. pose proof (IZR_lt _ _ Hnum) as Qn.
    split.
    + apply (Rmult_le_reg_r (IZR den * IZR (10 ^ (r + 1)))%R); [ nra | ].
      replace (/ IZR (10 ^ (r + 1)) * (IZR den * IZR (10 ^ (r + 1))))%R with (IZR den) by (field; lra).
      replace (IZR num / IZR den * (IZR den * IZR (10 ^ (r + 1))))%R with (IZR num * IZR (10 ^ (r + 1)))%R by (field; lra).
      rewrite <- mult_IZR. apply IZR_le. nia.
    + apply (Rmult_lt_reg_r (IZR den * IZR (10 ^ r))%R); [ nra | ].
      replace (/ IZR (10 ^ r) * (IZR den * IZR (10 ^ r)))%R with (IZR den) by (field; lra).
      replace (IZR num / IZR den * (IZR den * IZR (10 ^ r)))%R with (IZR num * IZR (10 ^ r))%R by (field; lra).
      rewrite <- mult_IZR. apply IZR_lt. nia.
Qed.
End Conv.

Lemma rhe_ok num den : 0 < den -> (Rabs (IZR (round_half_even num den) - IZR num / IZR den) <= / 2)%R.
Proof.
  intros Hden. pose proof (IZR_lt _ _ Hden) as Hd. unfold round_half_even.
  pose proof (Z.div_mod num den ltac:(lia)) as E. pose proof (Z.mod_pos_bound num den Hden) as B.
  set (q := num / den) in *. set (r := num mod den) in *.
  assert (X : (IZR num / IZR den = IZR q + IZR r / IZR den)%R).
  { rewrite E, plus_IZR, mult_IZR. field. lra. }
  rewrite X. assert (G : forall t : Z, (- den <= 2 * (t * den - r) <= den) -> (Rabs (IZR (q + t) - (IZR q + IZR r / IZR den)) <= / 2)%R).
  { intros t Ht. rewrite plus_IZR. replace (IZR q + IZR t - (IZR q + IZR r / IZR den))%R with (IZR (t * den - r) / IZR den)%R.
    - apply Rabs_le. destruct Ht as [Ha Hb]. apply IZR_le in Ha, Hb. rewrite mult_IZR in Ha, Hb. rewrite opp_IZR in Ha. split.
      + apply (Rmult_le_reg_r (IZR den)); [ exact Hd | ]. unfold Rdiv. rewrite Rmult_assoc, Rinv_l by lra. lra.
      + apply (Rmult_le_reg_r (IZR den)); [ exact Hd | ]. unfold Rdiv. rewrite Rmult_assoc, Rinv_l by lra. lra.
    - rewrite minus_IZR, mult_IZR. field. lra. }
  destruct (Z.ltb_spec (2 * r) den); [ replace q with (q + 0) at 1 by lia; apply G; lia | ].
  destruct (Z.ltb_spec den (2 * r)); [ apply G; lia | ].
  destruct (Z.even q); [ replace q with (q + 0) at 1 by lia; apply G; lia | apply G; lia ].
Qed.
Lemma rhe_nonneg num den : 0 < den -> 0 <= num -> 0 <= round_half_even num den.
Proof.
  intros Hd Hn. unfold round_half_even. assert (0 <= num / den) by (apply Z.div_pos; lia).
  destruct (_ <? _); [ lia | ]. destruct (_ <? _); [ lia | ]. destruct (Z.even _); lia.
Qed.

Lemma scaled_ok num den j : 0 < den -> (Rabs (IZR (scaled num den j) - quo num den * bpow r10 j) <= / 2)%R.
Proof.
  intros Hd. pose proof (IZR_lt _ _ Hd) as Hd'. unfold scaled, quo. destruct (Z.leb_spec 0 j) as [H|H].
  - rewrite bp by lia. replace (IZR num / IZR den * IZR (10 ^ j))%R with (IZR (num * 10 ^ j) / IZR den)%R; [ apply rhe_ok, Hd | ].
    rewrite mult_IZR. field. lra.
  - replace j with (- (- j)) at 2 by lia. rewrite bneg, bp by lia. assert (P : 0 < 10 ^ (- j)) by (apply Z.pow_pos_nonneg; lia). pose proof (IZR_lt _ _ P).
    replace (IZR num / IZR den * / IZR (10 ^ - j))%R with (IZR num / IZR (den * 10 ^ - j))%R; [ apply rhe_ok; nia | ].
    rewrite mult_IZR. field. lra.
Qed.

Lemma decimal_ok p num den d k : 0 < num -> 0 < den -> decimal p num den = (d, k) ->
  10 ^ Z.of_nat p <= d < 10 ^ (Z.of_nat p + 1) /\ (Rabs (IZR d * bpow r10 (k - Z.of_nat p) - quo num den) <= / 2 * bpow r10 (k - Z.of_nat p))%R.
Proof.
  intros Hn Hd E. unfold decimal in E. set (k0 := dec_exp num den) in *. set (d0 := scaled num den (Z.of_nat p - k0)) in *.
  pose proof (dec_exp_ok num den Hn Hd) as [X1 X2]. fold k0 in X1, X2.
  pose proof (scaled_ok num den (Z.of_nat p - k0) Hd) as S. fold d0 in S.
  set (x := quo num den) in *. set (b := bpow r10 (Z.of_nat p - k0)) in *.
  assert (Hb : (0 < b)%R) by apply bpow_gt_0.
  assert (Hi : (bpow r10 (k0 - Z.of_nat p) * b = 1)%R). { unfold b. rewrite <- bpow_plus. replace (k0 - Z.of_nat p + (Z.of_nat p - k0)) with 0 by lia. reflexivity. }
  set (c := bpow r10 (k0 - Z.of_nat p)) in *. assert (Hc : (0 < c)%R) by apply bpow_gt_0.
  assert (L : (IZR (10 ^ Z.of_nat p) <= x * b)%R).
  { replace (IZR (10 ^ Z.of_nat p)) with (bpow r10 k0 * b)%R; [ apply Rmult_le_compat_r; lra | ].
    unfold b. rewrite <- bpow_plus. replace (k0 + (Z.of_nat p - k0)) with (Z.of_nat p) by lia. apply bp. lia. }
  assert (U : (x * b < IZR (10 ^ (Z.of_nat p + 1)))%R).
  { replace (IZR (10 ^ (Z.of_nat p + 1))) with (bpow r10 (k0 + 1) * b)%R; [ apply Rmult_lt_compat_r; lra | ].
    unfold b. rewrite <- bpow_plus. replace (k0 + 1 + (Z.of_nat p - k0)) with (Z.of_nat p + 1) by lia. apply bp. lia. }
  apply Rabs_le_inv in S.
  assert (L' : 10 ^ Z.of_nat p <= d0).
  { apply Z.lt_succ_r. unfold Z.succ. apply lt_IZR. rewrite plus_IZR. lra. }
  assert (U' : d0 <= 10 ^ (Z.of_nat p + 1)).
  { apply Z.lt_succ_r. unfold Z.succ. apply lt_IZR. rewrite plus_IZR. lra. }
  assert (Er : (Rabs (IZR d0 * c - x) <= / 2 * c)%R).
  { replace x with (x * b * c)%R by (rewrite Rmult_assoc, (Rmult_comm b c), Hi; lra). apply Rabs_le. nra. }
  destruct (Z.eqb_spec d0 (10 ^ (Z.of_nat p + 1))) as [Hcarry|Hno].
  - assert (d = 10 ^ Z.of_nat p) by congruence. assert (k = k0 + 1) by congruence. subst d k.
    split. { split; [ lia | apply Z.pow_lt_mono_r; lia ]. }
    replace (k0 + 1 - Z.of_nat p) with (1 + (k0 - Z.of_nat p)) by lia. rewrite bpow_plus. fold c. change (bpow r10 1) with 10%R.
    rewrite Hcarry in Er. rewrite Z.pow_add_r, mult_IZR in Er by lia. change (10 ^ 1)%Z with 10%Z in Er.
    replace (IZR (10 ^ Z.of_nat p) * (10 * c) - x)%R with (IZR (10 ^ Z.of_nat p) * 10 * c - x)%R by ring. lra.
  - assert (d = d0) by congruence. assert (k = k0) by congruence. subst d k. split; [ lia | exact Er ].
Qed.

(* ---------- doubles ---------- *)
Lemma numer_pos m e : 0 < numer m e.
Proof. unfold numer. apply Z.mul_pos_pos; [ lia | apply Z.pow_pos_nonneg; lia ]. Qed.
Lemma denom_pos e : 0 < denom e.
Proof. unfold denom. apply Z.pow_pos_nonneg; lia. Qed.
Lemma quo_value m e : quo (numer m e) (denom e) = F2R (Float radix2 (Zpos m) e).
Proof.
  unfold quo, numer, denom, F2R. cbn [Fnum Fexp]. rewrite mult_IZR.
  destruct (Z.leb_spec 0 e) as [H|H].
  - rewrite Z.max_l, Z.max_r by lia. change (2 ^ 0) with 1. rewrite <- (IZR_Zpower radix2) by lia. cbn [radix_val radix2]. field.
  - rewrite Z.max_r, Z.max_l by lia. change (2 ^ 0) with 1. replace e with (- (- e)) at 2 by lia. rewrite bpow_opp, <- (IZR_Zpower radix2) by lia. cbn [radix_val radix2].
    assert (0 < 2 ^ (- e)) by (apply Z.pow_pos_nonneg; lia). apply IZR_lt in H0. field. lra.
Qed.

(* spacing of doubles *)
Lemma gap m e m' e' : valid (Fin false m e) -> valid (Fin false m' e') ->
  (F2R (Float radix2 (Zpos m) e) < F2R (Float radix2 (Zpos m') e') ->
   F2R (Float radix2 (Zpos m) e) < IZR (2 ^ 53) * (F2R (Float radix2 (Zpos m') e') - F2R (Float radix2 (Zpos m) e)))%R.
Proof.
  cbn [valid]. intros (M & E & N) (M' & E' & N') Hlt. unfold F2R in *. cbn [Fnum Fexp] in *.
  destruct (Z.leb_spec e e') as [H|H].
  - set (b := bpow radix2 e) in *. assert (Hb : (0 < b)%R) by apply bpow_gt_0.
    replace (bpow radix2 e') with (IZR (2 ^ (e' - e)) * b)%R in *.
    2:{ unfold b. change (IZR (2 ^ (e' - e))) with (IZR (Zpower radix2 (e' - e))). rewrite IZR_Zpower by lia. rewrite <- bpow_plus. f_equal. lia. }
    rewrite <- Rmult_assoc, <- mult_IZR in *. set (n := Zpos m' * 2 ^ (e' - e)) in *.
    assert (Zpos m < n). { apply lt_IZR. apply (Rmult_lt_reg_r b); assumption. }
    assert (G : (IZR (Zpos m) + 1 <= IZR n)%R). { rewrite <- plus_IZR. apply IZR_le. lia. }
    apply IZR_lt in M. pose proof (IZR_lt 0 (Zpos m) ltac:(lia)).
    apply Rlt_le_trans with (IZR (2 ^ 53) * b)%R; [ apply Rmult_lt_compat_r; assumption | ]. nra.
  - exfalso. destruct N as [N|N]; [ | lia ].
    set (b := bpow radix2 e') in *. assert (Hb : (0 < b)%R) by apply bpow_gt_0.
    replace (bpow radix2 e) with (IZR (2 ^ (e - e')) * b)%R in *.
    2:{ change (IZR (2 ^ (e - e'))) with (IZR (Zpower radix2 (e - e'))). rewrite IZR_Zpower by lia. unfold b. rewrite <- bpow_plus. f_equal. lia. }
    rewrite <- Rmult_assoc, <- mult_IZR in Hlt. apply Rmult_lt_reg_r in Hlt; [ | exact Hb ]. apply lt_IZR in Hlt.
    assert (2 <= 2 ^ (e - e')). { change 2 with (2 ^ 1) at 1. apply Z.pow_le_mono_r; lia. }
    change (2 ^ 53) with (2 * 2 ^ 52) in M'. nia.
Qed.
(* two doubles that are equal are the same *)
Lemma value_unique m e m' e' : valid (Fin false m e) -> valid (Fin false m' e') ->
  F2R (Float radix2 (Zpos m) e) = F2R (Float radix2 (Zpos m') e') -> m = m' /\ e = e'.
Proof.
  assert (A : forall m e m' e', valid (Fin false m e) -> valid (Fin false m' e') -> e < e' -> F2R (Float radix2 (Zpos m) e) = F2R (Float radix2 (Zpos m') e') -> False).
  { cbn [valid]. intros m0 e0 m1 e1 (M & E & N) (M' & E' & N') H Heq. unfold F2R in *. cbn [Fnum Fexp] in *.
    destruct N' as [N'|N']; [ | lia ].
    set (b := bpow radix2 e0) in *. assert (Hb : (0 < b)%R) by apply bpow_gt_0.
    replace (bpow radix2 e1) with (IZR (2 ^ (e1 - e0)) * b)%R in *.
    2:{ change (IZR (2 ^ (e1 - e0))) with (IZR (Zpower radix2 (e1 - e0))). rewrite IZR_Zpower by lia. unfold b. rewrite <- bpow_plus. f_equal. lia. }
    rewrite <- Rmult_assoc, <- mult_IZR in Heq. apply Rmult_eq_reg_r in Heq; [ | lra ]. apply eq_IZR in Heq.
    assert (2 <= 2 ^ (e1 - e0)). { change 2 with (2 ^ 1) at 1. apply Z.pow_le_mono_r; lia. }
    change (2 ^ 53) with (2 * 2 ^ 52) in M. nia. }
  intros V V' Heq. destruct (Z.lt_trichotomy e e') as [H|[H|H]].
  - exfalso. eauto.
  - subst e'. split; [ | reflexivity ]. unfold F2R in Heq. cbn [Fnum Fexp] in Heq. apply Rmult_eq_reg_r in Heq; [ | apply Rgt_not_eq, bpow_gt_0 ]. apply eq_IZR in Heq. congruence.
  - exfalso. symmetry in Heq. eauto.
Qed.

(* 17 significant digits identify a double *)
Lemma identify_pos (v x y : R) m e m' e' k : valid (Fin false m e) -> valid (Fin false m' e') ->
  x = F2R (Float radix2 (Zpos m) e) -> y = F2R (Float radix2 (Zpos m') e') ->
  (bpow r10 k <= v -> Rabs (v - x) <= / 2 * bpow r10 (k - 16) -> Rabs (v - y) <= / 2 * bpow r10 (k - 16) -> x = y)%R.
Proof.
  intros V V' Ex Ey Hv Hx Hy.
  assert (W : forall m e m' e' x y, valid (Fin false m e) -> valid (Fin false m' e') -> x = F2R (Float radix2 (Zpos m) e) -> y = F2R (Float radix2 (Zpos m') e') ->
     (Rabs (v - x) <= / 2 * bpow r10 (k - 16) -> Rabs (v - y) <= / 2 * bpow r10 (k - 16) -> x < y -> False)%R).
  { clear -Hv. intros m e m' e' x y V V' Ex Ey Hx Hy Hlt. subst x y. pose proof (gap m e m' e' V V' Hlt) as G.
    set (x := F2R (Float radix2 (Zpos m) e)) in *. set (y := F2R (Float radix2 (Zpos m') e')) in *.
    apply Rabs_le_inv in Hx, Hy. replace (k - 16) with (k + (-16)) in * by lia. rewrite bpow_plus in *.
    set (b := bpow r10 k) in *. assert (Hb : (0 < b)%R) by apply bpow_gt_0.
    assert (E16 : (bpow r10 (-16) = / 10000000000000000)%R) by reflexivity. rewrite E16 in *.
    change (2 ^ 53) with 9007199254740992 in G.
    assert (Hd : (y - x <= b * / 10000000000000000)%R) by lra.
    assert (Hx0 : (x >= b * (1 - / 2 * / 10000000000000000))%R) by lra.
    lra. }
  destruct (Rlt_or_le x y) as [H|H]; [ exfalso; exact (W m e m' e' x y V V' Ex Ey Hx Hy H) | ].
  destruct (Rlt_or_le y x) as [H'|H']; [ exfalso; exact (W m' e' m e y x V' V Ey Ex Hy Hx H') | ]. lra.
Qed.
