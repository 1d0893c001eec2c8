(* The real roots of the Legendre polynomials: existence, factorisation, distance of a Newton step. *)
From Coq Require Import Reals Lra Lia.
From Coquelicot Require Import Coquelicot.
From Verif Require Import Common ArrayLib GridSpec GridPropsLemmas PermPropsLemmas PotentialSpec PotentialPropsLemmas LegendreMath.
Open Scope R_scope.

Fixpoint prodn (f : nat -> R) (n : nat) : R := match n with O => 1 | S m => prodn f m * f m end.

(* degree at most n, coefficient c in front of x^n *)
Fixpoint pdeg (n : nat) (c : R) (f : R -> R) : Prop :=
  match n with O => forall x, f x = c | S m => exists g b, pdeg m c g /\ forall x, f x = x * g x + b end.
Lemma pdeg_ext n : forall c f g, (forall x, f x = g x) -> pdeg n c f -> pdeg n c g.
Proof.
  destruct n; cbn; intros c f g E H; [ intros x; rewrite <- E; apply H | ].
  destruct H as (h & b & H & Hf). exists h, b. split; [ exact H | ]. intros x. rewrite <- E. apply Hf.
Qed.
Lemma pdeg_plus n : forall c d f g, pdeg n c f -> pdeg n d g -> pdeg n (c + d) (fun x => f x + g x).
Proof.
  induction n as [|n IH]; cbn; intros c d f g Hf Hg; [ intros x; rewrite Hf, Hg; reflexivity | ].
  destruct Hf as (f' & b & Hf' & Ef). destruct Hg as (g' & b' & Hg' & Eg).
  exists (fun x => f' x + g' x), (b + b'). split; [ apply IH; assumption | ]. intros x. rewrite Ef, Eg. ring.
Qed.
Lemma pdeg_scal n : forall a c f, pdeg n c f -> pdeg n (a * c) (fun x => a * f x).
Proof.
  induction n as [|n IH]; cbn; intros a c f Hf; [ intros x; rewrite Hf; reflexivity | ].
  destruct Hf as (f' & b & Hf' & Ef). exists (fun x => a * f' x), (a * b). split; [ apply IH; assumption | ]. intros x. rewrite Ef. ring.
Qed.
Lemma pdeg_up n : forall c f, pdeg n c f -> pdeg (S n) 0 f.
Proof.
  induction n as [|n IH]; intros c f Hf.
  - cbn in *. exists (fun _ => 0), c. split; [ reflexivity | ]. intros x. rewrite Hf. ring.
  - destruct Hf as (g & b & Hg & E). exists g, b. split; [ apply IH with c, Hg | exact E ].
Qed.
Lemma pdeg_x n c f : pdeg n c f -> pdeg (S n) c (fun x => x * f x).
Proof. intros H. exists f, 0. split; [ exact H | ]. intros x. ring. Qed.
Lemma pdeg_factor n : forall c f a, pdeg (S n) c f -> exists g, pdeg n c g /\ forall x, f x - f a = (x - a) * g x.
Proof.
  induction n as [|n IH]; intros c f a (g & b & Hg & E).
  - exists g. split; [ exact Hg | ]. intros x. cbn in Hg. rewrite !E, !Hg. ring.
  - destruct (IH c g a Hg) as (h & Hh & Eh). exists (fun x => g x + a * h x). split.
    + replace c with (c + 0) by ring. apply pdeg_plus; [ exact Hg | ]. apply pdeg_up with (a * c). apply pdeg_scal, Hh.
    + intros x. rewrite !E. transitivity ((x - a) * g x + a * (g x - g a)); [ ring | ]. rewrite Eh. ring.
Qed.
Lemma pdeg_roots n : forall c f (r : nat -> R), pdeg n c f -> (forall i, (i < n)%nat -> f (r i) = 0) ->
  (forall i j, (i < j < n)%nat -> r i <> r j) -> forall x, f x = c * prodn (fun j => x - r j) n.
Proof.
  induction n as [|n IH]; intros c f r Hf Hr Hd x; [ cbn in *; rewrite Hf; ring | ].
  destruct (pdeg_factor n c f (r n) Hf) as (g & Hg & E). rewrite (Hr n) in E by lia.
  assert (Eg : forall y, f y = (y - r n) * g y) by (intros y; specialize (E y); lra).
  cbn [prodn]. rewrite Eg, (IH c g r Hg); [ ring | | intros i j H; apply Hd; lia ].
  intros i Hi. specialize (Eg (r i)). rewrite (Hr i) in Eg by lia.
  assert (r i <> r n) by (apply Hd; lia). destruct (Rmult_integral _ _ (eq_sym Eg)) as [A|A]; [ exfalso; lra | exact A ].
Qed.
Lemma LP_deg n : exists c, 0 < c /\ pdeg n c (LP n).
Proof.
  revert n. apply two_step.
  - exists 1. split; [ lra | ]. intros x. apply LP0.
  - exists 1. split; [ lra | ]. exists (fun _ => 1), 0. split; [ intros x; reflexivity | ]. intros x. rewrite LP1. ring.
  - intros n (c & Hc & Pc) (d & Hd & Pd). pose proof (pos_INR n).
    exists ((2 * INR n + 3) / (INR n + 2) * d). split; [ apply Rmult_lt_0_compat; [ apply Rdiv_lt_0_compat; lra | exact Hd ] | ].
    replace ((2 * INR n + 3) / (INR n + 2) * d) with ((2 * INR n + 3) / (INR n + 2) * d + 0) by ring.
    apply pdeg_ext with (fun x => (2 * INR n + 3) / (INR n + 2) * (x * LP (S n) x) + - (INR n + 1) / (INR n + 2) * LP n x).
    { intros x. rewrite LP_SS. field. lra. }
    apply (pdeg_plus (S (S n))).
    + apply pdeg_scal, pdeg_x, Pd.
    + apply pdeg_up with 0. apply pdeg_up with (- (INR n + 1) / (INR n + 2) * c). apply pdeg_scal, Pc.
Qed.

Lemma prodn_sign (f : nat -> R) n k : (k <= n)%nat -> (forall j, (j < k)%nat -> 0 < f j) -> (forall j, (k <= j < n)%nat -> f j < 0) ->
  0 < (-1) ^ (n - k) * prodn f n.
Proof.
  intros Hk Hp Hn. induction n as [|n IH].
  - replace k with 0%nat by lia. cbn. lra.
  - destruct (Nat.eq_dec k (S n)) as [->|N].
    + rewrite Nat.sub_diag. cbn [pow]. rewrite Rmult_1_l. clear IH Hn Hk. revert Hp. generalize (S n). intros m Hp.
      induction m as [|m IHm]; cbn [prodn]; [ lra | ]. apply Rmult_lt_0_compat; [ apply IHm; intros; apply Hp; lia | apply Hp; lia ].
    + replace (S n - k)%nat with (S (n - k)) by lia. cbn [pow prodn].
      assert (0 < (-1) ^ (n - k) * prodn f n) by (apply IH; [ lia | intros; apply Hn; lia ]).
      assert (f n < 0) by (apply Hn; lia). replace (-1 * (-1) ^ (n - k) * (prodn f n * f n)) with (((-1) ^ (n - k) * prodn f n) * - f n) by ring.
      apply Rmult_lt_0_compat; lra.
Qed.
Lemma finite_choice (Q : nat -> R -> Prop) n : (forall i, (i < n)%nat -> exists y, Q i y) -> exists f, forall i, (i < n)%nat -> Q i (f i).
Proof.
  induction n as [|n IH]; intros H; [ exists (fun _ => 0); intros; lia | ].
  destruct IH as [f Hf]; [ intros; apply H; lia | ]. destruct (H n) as [y Hy]; [ lia | ].
  exists (fun i => if Nat.eqb i n then y else f i). intros i Hi. destruct (Nat.eqb_spec i n); [ subst; exact Hy | apply Hf; lia ].
Qed.
Lemma pow_m1_sq k : (-1) ^ k * (-1) ^ k = 1.
Proof. induction k as [|k IH]; cbn; [ ring | ]. transitivity ((-1) ^ k * (-1) ^ k); [ ring | exact IH ]. Qed.
Lemma LP_ivt n a b : a < b -> LP n a * LP n b < 0 -> exists y, a < y < b /\ LP n y = 0.
Proof.
  intros Hab Hs.
  assert (C : forall x, continuity_pt (LP n) x) by (intros x; apply continuity_pt_filterlim, LP_cont).
  destruct (Rlt_or_le (LP n a) 0) as [Ha|Ha].
  - assert (0 < LP n b) by nra. destruct (IVT (LP n) a b C Hab Ha H) as (y & [[A B] Ey]).
    exists y. split; [ | exact Ey ]. split; apply Rnot_le_lt; intros L; [ replace y with a in Ey by lra | replace y with b in Ey by lra ]; lra.
  - assert (0 < LP n a) by (destruct Ha as [?|E]; [ assumption | rewrite <- E in Hs; lra ]). assert (LP n b < 0) by nra.
    assert (C' : continuity (fun x => - LP n x)) by (intros x; apply continuity_pt_opp, C).
    destruct (IVT (fun x => - LP n x) a b C' Hab) as (y & [[A B] Ey]); [ lra | lra | ].
    exists y. split; [ | lra ]. split; apply Rnot_le_lt; intros L; [ replace y with a in Ey by lra | replace y with b in Ey by lra ]; lra.
Qed.

(* n strictly increasing roots, with the sign of the previous polynomial at each *)
Lemma LP_roots_sign m : exists r : nat -> R,
  (forall i, (i < S m)%nat -> LP (S m) (r i) = 0 /\ 0 < (-1) ^ (m - i) * LP m (r i)) /\ (forall i j, (i < j < S m)%nat -> r i < r j).
Proof.
  induction m as [|m (r & Hr & Inc)].
  - exists (fun _ => 0). split; [ | intros; lia ]. intros i Hi. rewrite LP1, LP0. replace (0 - i)%nat with 0%nat by lia. cbn. lra.
  - set (e := fun i => if Nat.eqb i 0 then -1 else if Nat.leb i (S m) then r (i - 1)%nat else 1).
    assert (Ir : forall i, (i < S m)%nat -> -1 < r i < 1) by (intros i Hi; apply (root_inside m), Hr, Hi).
    assert (e0 : e 0%nat = -1) by reflexivity.
    assert (er : forall i, (i < S m)%nat -> e (S i) = r i).
    { intros i Hi. unfold e. cbn [Nat.eqb]. destruct (Nat.leb_spec (S i) (S m)); [ | lia ]. f_equal. lia. }
    assert (e1 : e (S (S m)) = 1).
    { unfold e. cbn [Nat.eqb]. destruct (Nat.leb_spec (S (S m)) (S m)); [ lia | reflexivity ]. }
    assert (Einc : forall i, (i < S (S m))%nat -> e i < e (S i)).
    { intros i Hi. destruct i as [|i].
      - rewrite e0, er by lia. apply Ir. lia.
      - rewrite er by lia. destruct (Nat.eq_dec i m) as [->|N]; [ rewrite e1; apply Ir; lia | ]. rewrite er by lia. apply Inc. lia. }
    assert (Emono : forall i j, (i < j <= S (S m))%nat -> e i < e j).
    { intros i j [H1 H2]. induction H1 as [|j H1 IH]; [ apply Einc; lia | ]. apply Rlt_trans with (e j); [ apply IH; lia | apply Einc; lia ]. }
    assert (Sg : forall i, (i <= S (S m))%nat -> 0 < (-1) ^ (S (S m) - i) * LP (S (S m)) (e i)).
    { intros i Hi. destruct i as [|i].
      - rewrite e0, LP_at_m1, Nat.sub_0_r. rewrite pow_m1_sq. lra.
      - destruct (Nat.eq_dec i (S m)) as [->|N].
        + rewrite e1, LP_at_1. replace (S (S m) - S (S m))%nat with 0%nat by lia. cbn. lra.
        + rewrite er by lia. destruct (Hr i) as [R0 R1]; [ lia | ]. rewrite LP_SS, R0. pose proof (pos_INR m).
          replace (S (S m) - S i)%nat with (S (m - i)) by lia. cbn [pow].
          replace (-1 * (-1) ^ (m - i) * (((2 * INR m + 3) * r i * 0 - (INR m + 1) * LP m (r i)) / (INR m + 2)))
            with (((INR m + 1) / (INR m + 2)) * ((-1) ^ (m - i) * LP m (r i))) by (field; lra).
          apply Rmult_lt_0_compat; [ apply Rdiv_lt_0_compat; lra | exact R1 ]. }
    destruct (finite_choice (fun i y => e i < y < e (S i) /\ LP (S (S m)) y = 0) (S (S m))) as [y Hy].
    { intros i Hi. apply LP_ivt; [ apply Einc, Hi | ]. pose proof (Sg i ltac:(lia)) as A. pose proof (Sg (S i) ltac:(lia)) as B.
      replace (S (S m) - i)%nat with (S (S (S m) - S i)) in A by lia. cbn [pow] in A.
      pose proof (pow_m1_sq (S (S m) - S i)) as Q. set (u := (-1) ^ (S (S m) - S i)) in *.
      assert (0 < (-1 * u * LP (S (S m)) (e i)) * (u * LP (S (S m)) (e (S i)))) by (apply Rmult_lt_0_compat; assumption).
      replace (-1 * u * LP (S (S m)) (e i) * (u * LP (S (S m)) (e (S i)))) with (- ((u * u) * (LP (S (S m)) (e i) * LP (S (S m)) (e (S i))))) in H by ring.
      rewrite Q in H. lra. }
    exists y. split.
    + intros i Hi. destruct (Hy i Hi) as [[Y1 Y2] Y3]. split; [ exact Y3 | ].
      destruct (LP_deg (S m)) as (c & Hc & Pc).
      rewrite (pdeg_roots (S m) c (LP (S m)) r Pc).
      * assert (0 < (-1) ^ (S m - i) * prodn (fun j => y i - r j) (S m)).
        { apply prodn_sign; [ lia | | ].
          - intros j Hj. rewrite <- er by lia. destruct (Nat.eq_dec (S j) i) as [->|N]; [ lra | ]. pose proof (Emono (S j) i ltac:(lia)). lra.
          - intros j Hj. rewrite <- er by lia. destruct (Nat.eq_dec (S i) (S j)) as [E|N]; [ rewrite <- E; lra | ]. pose proof (Emono (S i) (S j) ltac:(lia)). lra. }
        replace ((-1) ^ (S m - i) * (c * prodn (fun j => y i - r j) (S m))) with (c * ((-1) ^ (S m - i) * prodn (fun j => y i - r j) (S m))) by ring.
        apply Rmult_lt_0_compat; assumption.
      * intros j Hj. apply Hr, Hj.
      * intros j k Hjk. pose proof (Inc j k Hjk). lra.
    + intros i j H. destruct (Hy i ltac:(lia)) as [[_ A] _]. destruct (Hy j ltac:(lia)) as [[B _] _].
      destruct (Nat.eq_dec (S i) j) as [<-|N]; [ lra | ]. pose proof (Emono (S i) j ltac:(lia)). lra.
Qed.
Lemma LP_roots n : exists r : nat -> R, (forall i, (i < n)%nat -> LP n (r i) = 0 /\ -1 < r i < 1) /\ (forall i j, (i < j < n)%nat -> r i < r j).
Proof.
  destruct n as [|m]; [ exists (fun _ => 0); split; intros; lia | ].
  destruct (LP_roots_sign m) as (r & H & I). exists r. split; [ | exact I ]. intros i Hi. destruct (H i Hi) as [A _].
  split; [ exact A | ]. apply (root_inside m), A.
Qed.

(* Newton: near a point with a small step there is a root *)
Lemma prodn_derive (r : nat -> R) n x : (forall j, (j < n)%nat -> x <> r j) ->
  is_derive (fun t => prodn (fun j => t - r j) n) x (prodn (fun j => x - r j) n * sum (fun j => / (x - r j)) n).
Proof.
  induction n as [|n IH]; intros H.
  - unfold sum; cbn. rewrite Rmult_0_r. apply @is_derive_const.
  - cbn [prodn]. rewrite sum_S.
    replace (prodn (fun j => x - r j) n * (x - r n) * (sum (fun j => / (x - r j)) n + / (x - r n)))
      with (plus (mult (prodn (fun j => x - r j) n * sum (fun j => / (x - r j)) n) (x - r n)) (mult (prodn (fun j => x - r j) n) 1)).
    + apply (is_derive_mult (fun t => prodn (fun j => t - r j) n) (fun t => t - r n)).
      * apply IH. intros j Hj. apply H. lia.
      * auto_derive; [ exact I | ring ].
      * intros; apply Rmult_comm.
    + unfold plus, mult; cbn. assert (x <> r n) by (apply H; lia). field. lra.
Qed.
Lemma sum_abs f n : Rabs (sum f n) <= sum (fun i => Rabs (f i)) n.
Proof. induction n as [|n IH]; [ unfold sum; cbn; rewrite Rabs_R0; lra | ]. rewrite !sum_S. apply Rle_trans with (1 := Rabs_triang _ _). lra. Qed.
Lemma sum_le f g n : (forall i, (i < n)%nat -> f i <= g i) -> sum f n <= sum g n.
Proof. induction n as [|n IH]; intros H; [ unfold sum; cbn; lra | ]. rewrite !sum_S. apply Rplus_le_compat; [ apply IH; intros; apply H; lia | apply H; lia ]. Qed.
Lemma sum_const c n : sum (fun _ => c) n = INR n * c.
Proof. induction n as [|n IH]; [ unfold sum; cbn; ring | ]. rewrite sum_S, IH, S_INR. ring. Qed.
Lemma newton_near n x : (1 <= n)%nat -> dLP n x <> 0 -> exists t, LP n t = 0 /\ -1 < t < 1 /\ Rabs (x - t) <= INR n * Rabs (LP n x / dLP n x).
Proof.
  intros Hn Hd. destruct (LP_roots n) as (r & Hr & Inc).
  destruct (Req_dec (LP n x) 0) as [E|NE].
  { exists x. split; [ exact E | ]. destruct n as [|m]; [ lia | ]. split; [ apply (root_inside m), E | ].
    rewrite E. unfold Rdiv. rewrite Rmult_0_l, Rminus_diag_eq by reflexivity. rewrite Rabs_R0. lra. }
  destruct (LP_deg n) as (c & Hc & Pc).
  assert (F : forall y, LP n y = c * prodn (fun j => y - r j) n).
  { apply pdeg_roots; [ exact Pc | intros i Hi; apply Hr, Hi | intros i j H; pose proof (Inc i j H); lra ]. }
  assert (Hx : forall j, (j < n)%nat -> x <> r j) by (intros j Hj E; apply NE; rewrite E; apply Hr, Hj).
  assert (D : dLP n x = LP n x * sum (fun j => / (x - r j)) n).
  { rewrite <- (is_derive_unique _ _ _ (LP_derive n x)).
    replace (Derive (LP n) x) with (Derive (fun y => c * prodn (fun j => y - r j) n) x) by (apply Derive_ext; intros y; symmetry; apply F).
    apply is_derive_unique. rewrite F, Rmult_assoc. apply (is_derive_scal (fun y => prodn (fun j => y - r j) n)). apply prodn_derive, Hx. }
  set (d := Rabs (LP n x / dLP n x)).
  assert (Hs : sum (fun j => / (x - r j)) n <> 0) by (intros E; rewrite E in D; lra).
  assert (Ed : d * Rabs (sum (fun j => / (x - r j)) n) = 1).
  { unfold d. rewrite <- Rabs_mult. replace (LP n x / dLP n x * sum (fun j => / (x - r j)) n) with 1; [ apply Rabs_R1 | ]. rewrite D. field. split; assumption. }
  assert (Hd0 : 0 < d) by (apply Rabs_pos_lt; apply Rmult_integral_contrapositive; split; [ exact NE | apply Rinv_neq_0_compat, Hd ]).
  assert (Hex : ~ (forall j, (j < n)%nat -> INR n * d < Rabs (x - r j))).
  { intros A. assert (B : Rabs (sum (fun j => / (x - r j)) n) <= sum (fun j => Rabs (/ (x - r j))) n) by apply sum_abs.
    assert (In : 1 <= INR n) by (apply (le_INR 1), Hn).
    assert (C : sum (fun j => Rabs (/ (x - r j))) n < / d).
    { replace (/ d) with (sum (fun _ => / (INR n * d)) n) by (rewrite sum_const; field; lra).
      destruct n as [|k]; [ lia | ]. rewrite !sum_S.
      apply Rplus_le_lt_compat.
      - apply sum_le. intros i Hi. rewrite Rabs_inv. apply Rinv_le_contravar; [ nra | ]. left. apply A. lia.
      - rewrite Rabs_inv. apply Rinv_lt_contravar; [ | apply A; lia ].
        apply Rmult_lt_0_compat; [ nra | ]. apply Rlt_trans with (INR (S k) * d); [ nra | apply A; lia ]. }
    assert (Rabs (sum (fun j => / (x - r j)) n) = / d) by (apply (Rmult_eq_reg_l d); [ rewrite Ed; field; lra | lra ]). lra. }
  destruct (Classical_Pred_Type.not_all_ex_not _ _ Hex) as [j Hj].
  apply Classical_Prop.imply_to_and in Hj. destruct Hj as [Hj Hle]. apply Rnot_lt_le in Hle.
  exists (r j). destruct (Hr j Hj) as [E I]. split; [ exact E | ]. split; [ exact I | exact Hle ].
Qed.
