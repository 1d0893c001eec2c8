(* Text of numbers: shape, length, and reading them back. *)
From Coq Require Import String Ascii Reals Psatz.
From Flocq Require Import Core.
From Verif Require Import Common NameModel NameProofs ParamsModel TextModel TextSpec TextNum.
Open Scope string_scope.
Open Scope list_scope.
Open Scope Z_scope.

(* ---------- strings ---------- *)
Lemma sapp_assoc (a b c : string) : ((a ++ b) ++ c = a ++ (b ++ c))%string.
Proof. induction a as [|x a IH]; cbn; [ reflexivity | now rewrite IH ]. Qed.
Lemma sapp_nil (a : string) : (a ++ "" = a)%string.
Proof. induction a as [|x a IH]; cbn; [ reflexivity | now rewrite IH ]. Qed.
Lemma slength_app (a b : string) : String.length (a ++ b) = (String.length a + String.length b)%nat.
Proof. induction a as [|x a IH]; cbn; [ reflexivity | now rewrite IH ]. Qed.
Fixpoint allc (f : ascii -> bool) (s : string) : bool := match s with EmptyString => true | String c r => f c && allc f r end.
Lemma allc_app f a b : allc f (a ++ b) = allc f a && allc f b.
Proof. induction a as [|x a IH]; cbn; [ reflexivity | now rewrite IH, andb_assoc ]. Qed.
Lemma allc_impl (f g : ascii -> bool) s : (forall c, f c = true -> g c = true) -> allc f s = true -> allc g s = true.
Proof. intros H. induction s as [|c s IH]; cbn; [ reflexivity | ]. rewrite !andb_true_iff. intros [A B]. auto. Qed.
Lemma cat_app a b : cat (a ++ b) = (cat a ++ cat b)%string.
Proof. unfold cat. induction a as [|x a IH]; [ reflexivity | ]. cbn [app fold_right]. rewrite IH, sapp_assoc. reflexivity. Qed.

(* ---------- digits ---------- *)
Lemma digit_cases d : 0 <= d < 10 -> isdigit (digit d) = true /\ digit_val (digit d) = d.
Proof.
  intros H. assert (d = 0 \/ d = 1 \/ d = 2 \/ d = 3 \/ d = 4 \/ d = 5 \/ d = 6 \/ d = 7 \/ d = 8 \/ d = 9) as C by lia.
  repeat destruct C as [C|C]; subst d; vm_compute; split; reflexivity.
Qed.
Lemma digits_length n v : String.length (digits n v) = n.
Proof. revert v; induction n as [|n IH]; intros v; cbn [digits]; [ reflexivity | ]. rewrite slength_app, IH. cbn. lia. Qed.
Lemma digits_all n v : allc isdigit (digits n v) = true.
Proof.
  revert v; induction n as [|n IH]; intros v; cbn [digits]; [ reflexivity | ]. rewrite allc_app, IH. cbn [allc].
  rewrite (proj1 (digit_cases (v mod 10) (Z.mod_pos_bound v 10 ltac:(lia)))). reflexivity.
Qed.
Lemma take_digits_app n : forall v s acc c, take_digits (digits n v ++ s) acc c = take_digits s (acc * 10 ^ Z.of_nat n + v mod 10 ^ Z.of_nat n) (c + n).
Proof.
  induction n as [|n IH]; intros v s acc c.
  - cbn [digits append]. change (10 ^ Z.of_nat 0) with 1. rewrite Z.mod_1_r. f_equal; lia.
  - cbn [digits]. rewrite sapp_assoc, IH. cbn [append take_digits].
    destruct (digit_cases (v mod 10) (Z.mod_pos_bound v 10 ltac:(lia))) as [-> ->]. f_equal; [ | lia ].
    rewrite Nat2Z.inj_succ, Z.pow_succ_r by lia. rewrite Z.rem_mul_r by (try apply Z.pow_nonzero; lia). ring.
Qed.
Definition starts_digit (s : string) : bool := match s with String c _ => isdigit c | EmptyString => false end.
Lemma take_digits_stop s acc c : starts_digit s = false -> take_digits s acc c = (acc, c, s).
Proof. destruct s as [|x s]; cbn; [ reflexivity | ]. now intros ->. Qed.

Lemma take_sign_digits n v s : (0 < n)%nat -> take_sign (digits n v ++ s) = (false, (digits n v ++ s)%string).
Proof.
  intros Hn. pose proof (digits_all n v) as A. pose proof (digits_length n v) as L. destruct (digits n v) as [|c r]; cbn in L; [ lia | ].
  cbn [allc] in A. apply andb_true_iff in A. destruct A as [A _]. cbn [append]. unfold take_sign.
  destruct c as [b0 b1 b2 b3 b4 b5 b6 b7]. destruct b0, b1, b2, b3, b4, b5, b6, b7; try reflexivity; discriminate A.
Qed.

(* ---------- the text of a number ---------- *)
Definition exp_range (k : Z) : Prop := -1000 < k < 1000.
Lemma read_exp k s : exp_range k -> starts_digit s = false ->
  exists n, (0 < n)%nat /\
   (let '(eneg, r) := take_sign (exp_text k ++ s) in let '(a, n', r') := take_digits r 0 0 in (eneg, a, n', r')) = (k <? 0, Z.abs k, n, s).
Proof.
  intros Hk Hs. unfold exp_range, exp_text in *.
  assert (T : forall x, take_sign (((if (k <? 0)%Z then "-" else "+") ++ x) ++ s) = (k <? 0, (x ++ s)%string)) by (intros x; destruct (k <? 0); reflexivity).
  rewrite T. destruct (Z.ltb_spec (Z.abs k) 100).
  - exists 2%nat. split; [ lia | ]. rewrite take_digits_app, take_digits_stop by exact Hs. rewrite Z.mod_small by (change (10 ^ Z.of_nat 2) with 100; lia). reflexivity.
  - exists 3%nat. split; [ lia | ]. rewrite take_digits_app, take_digits_stop by exact Hs. rewrite Z.mod_small by (change (10 ^ Z.of_nat 3) with 1000; lia). reflexivity.
Qed.

Lemma read_sci p d k s sg neg : (forall t, take_sign (sg ++ digits 1 (d / 10 ^ Z.of_nat p) ++ t)%string = (neg, (digits 1 (d / 10 ^ Z.of_nat p) ++ t)%string)) ->
  0 <= d < 10 ^ (Z.of_nat p + 1) -> exp_range k -> starts_digit s = false ->
  read_number ((sg ++ sci_text p d k) ++ s)%string = Some (neg, d, k - Z.of_nat p, s).
Proof.
  intros Hsg Hd Hk Hs. unfold read_number, sci_text.
  replace ((sg ++ digits 1 (d / 10 ^ Z.of_nat p)%Z ++ "." ++ digits p d ++ "e" ++ exp_text k) ++ s)%string
    with (sg ++ digits 1 (d / 10 ^ Z.of_nat p)%Z ++ String "." (digits p d ++ String "e" (exp_text k ++ s)))%string.
  2:{ rewrite !sapp_assoc. cbn [append]. rewrite ?sapp_assoc. reflexivity. }
  rewrite Hsg. rewrite take_digits_app. rewrite (take_digits_stop (String "." _)) by reflexivity.
  change (0 + 1 =? 0)%nat with false. cbv iota.
  rewrite take_digits_app. rewrite (take_digits_stop (String "e" _)) by reflexivity. cbv iota beta.
  destruct (read_exp k s Hk Hs) as (n & Hn & E). destruct (take_sign (exp_text k ++ s)) as [eneg r]. destruct (take_digits r 0 0) as [[a n'] r'].
  injection E as -> -> -> ->. replace (n =? 0)%nat with false by (symmetry; apply Nat.eqb_neq; lia).
  assert (P : 0 < 10 ^ Z.of_nat p) by (apply Z.pow_pos_nonneg; lia).
  assert (Hq : 0 <= d / 10 ^ Z.of_nat p < 10).
  { split; [ apply Z.div_pos; lia | ]. apply Z.div_lt_upper_bound; [ lia | ]. rewrite Z.pow_add_r in Hd by lia. lia. }
  change (10 ^ Z.of_nat 1) with 10. rewrite (Z.mod_small (d / _)) by exact Hq.
  pose proof (Z.div_mod d (10 ^ Z.of_nat p) ltac:(lia)) as Hdm.
  f_equal. f_equal. f_equal; [ f_equal; lia | ]. destruct (Z.ltb_spec k 0); lia.
Qed.

(* exponents of doubles *)
Lemma exp_bound p m e d k : valid (Fin false m e) -> decimal p (numer m e) (denom e) = (d, k) -> exp_range k.
Proof.
  intros V E. destruct (decimal_ok p _ _ d k (numer_pos m e) (denom_pos e) E) as ([D1 D2] & B). rewrite quo_value in B.
  cbn [valid] in V. destruct V as (M & Ee & _). set (x := F2R (Float radix2 (Zpos m) e)) in *.
  assert (X1 : (x < bpow radix2 1024)%R).
  { unfold x, F2R. cbn [Fnum Fexp]. replace 1024 with (53 + 971) by lia. rewrite bpow_plus. apply Rlt_le_trans with (bpow radix2 53 * bpow radix2 e)%R.
    - apply Rmult_lt_compat_r; [ apply bpow_gt_0 | ]. rewrite <- (IZR_Zpower radix2) by lia. apply IZR_lt. exact M.
    - apply Rmult_le_compat_l; [ apply bpow_ge_0 | ]. apply bpow_le. lia. }
  assert (X2 : (bpow radix2 (-1074) <= x)%R).
  { unfold x, F2R. cbn [Fnum Fexp]. apply Rle_trans with (1 * bpow radix2 e)%R; [ rewrite Rmult_1_l; apply bpow_le; lia | ].
    apply Rmult_le_compat_r; [ apply bpow_ge_0 | ]. apply IZR_le. lia. }
  apply Rabs_le_inv in B. set (u := bpow r10 (k - Z.of_nat p)) in *. assert (Hu : (0 < u)%R) by apply bpow_gt_0.
  apply IZR_le in D1. assert (D2' : (IZR d <= IZR (10 ^ (Z.of_nat p + 1)) - 1)%R). { rewrite <- minus_IZR. apply IZR_le. lia. }
  assert (P1 : (IZR (10 ^ Z.of_nat p) * u = bpow r10 k)%R). { unfold u. rewrite <- bp by lia. rewrite <- bpow_plus. f_equal. lia. }
  assert (P2 : (IZR (10 ^ (Z.of_nat p + 1)) * u = bpow r10 (k + 1))%R). { unfold u. rewrite <- bp by lia. rewrite <- bpow_plus. f_equal. lia. }
  assert (P3 : (1 <= IZR (10 ^ Z.of_nat p))%R). { apply IZR_le. assert (0 < 10 ^ Z.of_nat p) by (apply Z.pow_pos_nonneg; lia). lia. }
  assert (Y1 : (bpow r10 k <= 2 * x)%R) by nra. assert (Y2 : (x <= bpow r10 (k + 1))%R) by nra.
  split.
  - destruct (Z.lt_ge_cases (-1000) k) as [H|H]; [ exact H | exfalso ].
    assert (C : (bpow r10 (-999) < bpow radix2 (-1074))%R).
    { replace (-999) with (- (999)) by reflexivity. replace (-1074) with (- (1074)) by reflexivity. rewrite !bpow_opp. apply Rinv_lt_contravar; [ apply Rmult_lt_0_compat; apply bpow_gt_0 | ].
      rewrite <- !IZR_Zpower by lia. apply IZR_lt. vm_compute. reflexivity. }
    pose proof (bpow_le r10 (k + 1) (-999) ltac:(lia)). lra.
  - destruct (Z.lt_ge_cases k 1000) as [H|H]; [ exact H | exfalso ].
    assert (C : (2 * bpow radix2 1024 < bpow r10 1000)%R).
    { rewrite <- !IZR_Zpower by lia. rewrite <- mult_IZR. apply IZR_lt. vm_compute. reflexivity. }
    pose proof (bpow_le r10 1000 k ltac:(lia)). lra.
Qed.

(* ---------- finite numbers, all formats ---------- *)
Definition magnitude (p : nat) (x : double) : Z * Z := match x with Fin _ m e => decimal p (numer m e) (denom e) | _ => (0, 0) end.
Lemma mag_ok p x d k : finite x -> magnitude p x = (d, k) -> 0 <= d < 10 ^ (Z.of_nat p + 1) /\ exp_range k.
Proof.
  intros F E. destruct x as [s|s|s|s m e]; try contradiction; cbn [magnitude] in E.
  - injection E as <- <-. split; [ split; [ lia | apply Z.pow_pos_nonneg; lia ] | unfold exp_range; lia ].
  - destruct (decimal_ok p _ _ d k (numer_pos m e) (denom_pos e) E) as ([D1 D2] & _). assert (0 < 10 ^ Z.of_nat p) by (apply Z.pow_pos_nonneg; lia).
    split; [ lia | ]. apply (exp_bound p m e d k); [ exact F | exact E ].
Qed.
Lemma sci_finite p x d k : finite x -> magnitude p x = (d, k) -> sci p x = (minus (sign_bit x) ++ sci_text p d k)%string.
Proof.
  intros F E. destruct x as [s|s|s|s m e]; try contradiction; cbn [magnitude sci sign_bit] in *.
  - injection E as <- <-. reflexivity.
  - rewrite E. reflexivity.
Qed.
Lemma number_rounded p x d k : finite x -> magnitude p x = (d, k) -> rounded_to p (value x) (number (sign_bit x) d (k - Z.of_nat p)).
Proof.
  intros F E. destruct x as [s|s|s|s m e]; try contradiction; cbn [magnitude sign_bit value] in *.
  - injection E as <- <-. exists 0. unfold number, F2R. cbn [Fnum Fexp]. replace (if s then - 0 else 0) with 0 by (destruct s; reflexivity). rewrite Rmult_0_l. split; [ left; split; reflexivity | ].
    rewrite Rminus_0_r, Rabs_R0. apply Rmult_le_pos; [ lra | apply bpow_ge_0 ].
  - destruct (decimal_ok p _ _ d k (numer_pos m e) (denom_pos e) E) as ([D1 D2] & B). rewrite quo_value in B. exists k.
    set (u := bpow r10 (k - Z.of_nat p)) in *. assert (Hu : (0 < u)%R) by apply bpow_gt_0.
    assert (P1 : (IZR (10 ^ Z.of_nat p) * u = bpow r10 k)%R). { unfold u. rewrite <- bp by lia. rewrite <- bpow_plus. f_equal. lia. }
    assert (P2 : (IZR (10 ^ (Z.of_nat p + 1)) * u = bpow r10 (k + 1))%R). { unfold u. rewrite <- bp by lia. rewrite <- bpow_plus. f_equal. lia. }
    assert (A : Rabs (number s d (k - Z.of_nat p)) = (IZR d * u)%R).
    { unfold number, F2R. cbn [Fnum Fexp]. change (bpow _ (k - Z.of_nat p)) with u. assert (Hd : (0 <= IZR d)%R) by (apply IZR_le; assert (0 < 10 ^ Z.of_nat p) by (apply Z.pow_pos_nonneg; lia); lia).
      destruct s; [ rewrite opp_IZR, Ropp_mult_distr_l_reverse, Rabs_Ropp | ]; apply Rabs_pos_eq; nra. }
    split.
    + right. change (Build_radix 10 eq_refl) with r10. rewrite <- P1, <- P2, A. apply IZR_le in D1. apply IZR_lt in D2. split; [ apply Rmult_le_compat_r; lra | apply Rmult_lt_compat_r; lra ].
    + change (Build_radix 10 eq_refl) with r10. fold u.
      replace (number s d (k - Z.of_nat p) - F2R (Float radix2 (if s then Z.neg m else Z.pos m) e))%R
        with (if s then - (IZR d * u - F2R (Float radix2 (Z.pos m) e)) else IZR d * u - F2R (Float radix2 (Z.pos m) e))%R.
      * destruct s; [ rewrite Rabs_Ropp | ]; exact B.
      * unfold number, F2R. cbn [Fnum Fexp]. change (bpow _ (k - Z.of_nat p)) with u. destruct s; [ rewrite opp_IZR; change (Z.neg m) with (- Z.pos m); rewrite opp_IZR; ring | reflexivity ].
Qed.

Lemma F2R_neg m e : F2R (Float radix2 (Z.neg m) e) = (- F2R (Float radix2 (Z.pos m) e))%R.
Proof. change (Z.neg m) with (- Z.pos m). apply F2R_Zopp. Qed.
Lemma value_abs s m e : Rabs (value (Fin s m e)) = F2R (Float radix2 (Zpos m) e).
Proof.
  cbn [value]. assert (0 < F2R (Float radix2 (Zpos m) e))%R by (apply F2R_gt_0; reflexivity).
  destruct s; [ rewrite F2R_neg, Rabs_Ropp | ]; apply Rabs_pos_eq; lra.
Qed.

Lemma rounded_identifies x v : finite x -> rounded_to 16 (value x) v -> identifies v x.
Proof.
  intros Fx (k & Hk & Hx) y Fy (k' & Hk' & Hy).
  change (Build_radix 10 eq_refl) with r10 in *.
  destruct Hk as [[Hv Hx0]|Hk].
  - subst v. destruct Hk' as [[_ Hy0]|Hk']; [ lra | ]. rewrite Rabs_R0 in Hk'. pose proof (bpow_gt_0 r10 k'). lra.
  - destruct Hk' as [[Hv _]|Hk']. { subst v. rewrite Rabs_R0 in Hk. pose proof (bpow_gt_0 r10 k). lra. }
    assert (k' = k). { assert (k < k' + 1) by (apply (lt_bpow r10); lra). assert (k' < k + 1) by (apply (lt_bpow r10); lra). lia. } subst k'.
    change (Z.of_nat 16) with 16 in *.
    (* signs agree *)
    assert (S : forall z, finite z -> (Rabs (v - value z) <= / 2 * bpow r10 (k - 16))%R ->
       exists m e, valid (Fin false m e) /\ z = Fin (sign_bit z) m e /\ (value z = (if Rlt_dec v 0 then - F2R (Float radix2 (Zpos m) e) else F2R (Float radix2 (Zpos m) e)))%R).
    { clear -Hk. intros z Fz Hz. replace (k - 16) with (k + (-16)) in Hz by lia. rewrite bpow_plus in Hz. set (b := bpow r10 k) in *. assert (Hb : (0 < b)%R) by apply bpow_gt_0.
      change (bpow r10 (-16)) with (/ 10000000000000000)%R in Hz.
      assert (H1 : (b / 2 < Rabs (value z))%R).
      { pose proof (Rabs_triang_inv v (value z)). lra. }
      destruct z as [s|s|s|s m e]; try contradiction; [ cbn [value] in H1; rewrite Rabs_R0 in H1; lra | ].
      exists m, e. split; [ destruct s; exact Fz | ]. split; [ reflexivity | ].
      assert (P : (0 < F2R (Float radix2 (Zpos m) e))%R) by (apply F2R_gt_0; reflexivity).
      rewrite value_abs in H1. apply Rabs_le_inv in Hz. destruct (Rlt_dec v 0) as [N|N].
      - rewrite Rabs_left in Hk by exact N. destruct s; cbn [value] in *; [ apply F2R_neg | exfalso; lra ].
      - rewrite Rabs_pos_eq in Hk by lra. destruct s; cbn [value] in *; [ rewrite F2R_neg in Hz; exfalso; lra | reflexivity ]. }
    destruct (S x Fx Hx) as (m & e & Vx & Ex & Ax). destruct (S y Fy Hy) as (m' & e' & Vy & Ey & Ay). rewrite Ax in Hx |- *. rewrite Ay in Hy |- *.
    destruct (Rlt_dec v 0) as [N|N].
    + rewrite Rabs_left in Hk by exact N. f_equal. apply (identify_pos (- v) _ _ m' e' m e k Vy Vx eq_refl eq_refl); [ lra | | ].
      * replace (- v - F2R (Float radix2 (Z.pos m') e'))%R with (- (v - - F2R (Float radix2 (Z.pos m') e')))%R by ring. rewrite Rabs_Ropp. exact Hy.
      * replace (- v - F2R (Float radix2 (Z.pos m) e))%R with (- (v - - F2R (Float radix2 (Z.pos m) e)))%R by ring. rewrite Rabs_Ropp. exact Hx.
    + rewrite Rabs_pos_eq in Hk by lra. apply (identify_pos v _ _ m' e' m e k Vy Vx eq_refl eq_refl); [ lra | exact Hy | exact Hx ].
Qed.

Lemma same_value x y : finite x -> finite y -> value x = value y -> x = y \/ (exists s s', x = Zer s /\ y = Zer s').
Proof.
  assert (P : forall m e, (0 < F2R (Float radix2 (Zpos m) e))%R) by (intros; apply F2R_gt_0; reflexivity).
  intros Fx Fy E. destruct x as [s|s|s|s m e], y as [s'|s'|s'|s' m' e']; try contradiction.
  - right. eauto.
  - exfalso. cbn [value] in E. pose proof (P m' e'). destruct s'; [ rewrite F2R_neg in E | ]; lra.
  - exfalso. cbn [value] in E. pose proof (P m e). destruct s; [ rewrite F2R_neg in E | ]; lra.
  - left. cbn [value] in E. pose proof (P m e). pose proof (P m' e'). destruct s, s'; rewrite ?F2R_neg in E; try (exfalso; lra).
    + apply Ropp_eq_compat in E. rewrite !Ropp_involutive in E. destruct (value_unique m e m' e' Fx Fy E) as [-> ->]. reflexivity.
    + destruct (value_unique m e m' e' Fx Fy E) as [-> ->]. reflexivity.
Qed.
