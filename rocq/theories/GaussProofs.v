From Coq Require Import Reals Lra Lia.
From Coquelicot Require Import Coquelicot.
From Verif Require Import Common ArrayLib SwpModel SwpProofs GridSpec GridPropsLemmas PermModel PermProofs PermPropsLemmas PotentialSpec PotentialPropsLemmas
  LegendreMath LegendreRoots LegendreQuad LegendreBound GaussModel.
Open Scope R_scope.

(* ---------- calc_gauss_points with exact roots ---------- *)
Lemma dLegendre_eq Pl m x : (forall l t, Pl l t = LP l t) -> x * x - 1 <> 0 -> dLegendre Pl (S m) x = dLP (S m) x.
Proof.
  intros H Hx. unfold dLegendre. rewrite !H. replace (S m - 1)%nat with m by lia. destruct (dLP_a m x) as [_ C].
  apply (Rmult_eq_reg_l (x * x - 1)); [ | exact Hx ]. rewrite S_INR.
  transitivity ((INR m + 1) * x * LP (S m) x - (INR m + 1) * LP m x); [ field; exact Hx | ].
  replace ((x * x - 1) * dLP (S m) x) with (- ((1 - x * x) * dLP (S m) x)) by ring. rewrite C. ring.
Qed.
Lemma gauss_points_exact Pl N roots lo hi off x w :
  (forall l t, Pl l t = LP l t) -> (1 <= N)%nat -> length roots = N -> NoDup roots -> (forall t, In t roots -> LP N t = 0) ->
  (off + N <= length x)%nat -> (off + N <= length w)%nat ->
  exists x' w', calc_gauss_points roots (dLegendre Pl N) off lo hi (x, w) = Ok (x', w') /\
    length x' = length x /\ length w' = length w /\
    (forall k, (k < off \/ off + N <= k)%nat -> nth k x' 0 = nth k x 0 /\ nth k w' 0 = nth k w 0) /\
    (lo < hi -> forall j, (j < N)%nat -> lo < nth (off + j) x' 0 < hi /\ 0 < nth (off + j) w' 0) /\
    forall (c : nat -> R) d, (d <= 2 * N)%nat ->
      is_RInt (fun y => sum (fun k => c k * y ^ k) d) lo hi
        (sum (fun j => nth (off + j) w' 0 * sum (fun k => c k * nth (off + j) x' 0 ^ k) d) N).
Proof.
  intros HP HN HL HD HR Hx Hw. destruct N as [|m]; [ lia | ]. set (N := S m) in *.
  destruct (calc_gauss_points_ok roots (dLegendre Pl N) off lo hi x w) as (x' & w' & E & L1 & L2 & V & F); try (rewrite HL; assumption).
  exists x', w'. split; [ exact E | ]. split; [ exact L1 | ]. split; [ exact L2 | ]. rewrite HL in V, F.
  assert (Hin : forall j, (j < N)%nat -> LP N (nth j roots 0) = 0) by (intros j Hj; apply HR, nth_In; lia).
  assert (Hw' : forall j, (j < N)%nat -> nth (off + j) w' 0 = (hi - lo) / 2 * gl_weight N (nth j roots 0)).
  { intros j Hj. destruct (V j Hj) as [_ V2]. rewrite (nth_error_nth _ _ 0 V2).
    destruct (root_inside m _ (Hin j Hj)) as [I D]. unfold gp_weight, gl_weight. unfold N. rewrite dLegendre_eq; [ | exact HP | nra ].
    replace 2.0 with 2 by lra. replace 1.0 with 1 by lra. field. split; [ exact D | nra ]. }
  assert (Hx' : forall j, (j < N)%nat -> nth (off + j) x' 0 = (hi - lo) * (nth j roots 0 + 1) / 2 + lo).
  { intros j Hj. destruct (V j Hj) as [V1 _]. rewrite (nth_error_nth _ _ 0 V1). unfold gp_node. replace 2.0 with 2 by lra. reflexivity. }
  split; [ | split ].
  - intros k Hk. destruct (F k Hk) as [F1 F2]. split.
    + destruct (nth_error x' k) eqn:E1; rewrite <- ?F1, ?E1 in *; [ rewrite (nth_error_nth _ _ 0 E1); symmetry; apply nth_error_nth; congruence | ].
      rewrite !nth_overflow; [ reflexivity | | ]; apply nth_error_None; congruence.
    + destruct (nth_error w' k) eqn:E1; rewrite <- ?F2, ?E1 in *; [ rewrite (nth_error_nth _ _ 0 E1); symmetry; apply nth_error_nth; congruence | ].
      rewrite !nth_overflow; [ reflexivity | | ]; apply nth_error_None; congruence.
  - intros Hlh j Hj. rewrite Hw', Hx' by exact Hj. destruct (root_inside m _ (Hin j Hj)) as [I D]. split; [ split; nra | ].
    apply Rmult_lt_0_compat; [ lra | ]. apply (gl_w_pos m (fun j => nth j roots 0)); [ exact Hin | exact Hj ].
  - intros c d Hd.
    rewrite (sum_ext _ (fun i => (hi - lo) / 2 * gl_weight N (nth i roots 0) * sum (fun k => c k * ((hi - lo) * (nth i roots 0 + 1) / 2 + lo) ^ k) d)).
    + apply (exact_interval m (fun j => nth j roots 0)); [ exact Hin | | exact Hd ].
      intros i j Hi Hj Hij Heq. apply Hij. apply (proj1 (NoDup_nth roots 0) HD); fold N in Hi, Hj; try lia. exact Heq.
    + intros j Hj. rewrite Hw', Hx' by exact Hj. reflexivity.
Qed.
Lemma roots_exist N : exists roots, length roots = N /\ NoDup roots /\ forall t, In t roots -> LP N t = 0.
Proof.
  destruct (LP_roots N) as (r & H & I). exists (map r (seq 0 N)). split; [ rewrite map_length, seq_length; reflexivity | ]. split.
  - apply (proj2 (NoDup_nth (map r (seq 0 N)) 0)). rewrite map_length, seq_length. intros i j Hi Hj E.
    rewrite !(nth_indep _ 0 (r 0%nat)), !map_nth, !seq_nth in E by (try rewrite map_length, seq_length; assumption). cbn in E.
    destruct (Nat.lt_trichotomy i j) as [L|[L|L]]; [ pose proof (I i j ltac:(lia)); lra | exact L | pose proof (I j i ltac:(lia)); lra ].
  - intros t Ht. apply in_map_iff in Ht. destruct Ht as (i & <- & Hi). apply in_seq in Hi. apply H. lia.
Qed.

(* ---------- gauss() ---------- *)
Lemma leg_loop_S k t : leg_loop (S k) t = (((2 * INR (S k) - 1) * t * fst (leg_loop k t) - (INR (S k) - 1) * snd (leg_loop k t)) / INR (S k), fst (leg_loop k t)).
Proof.
  unfold leg_loop at 1. rewrite seq_S, fold_left_app. cbn [fold_left plus]. fold (leg_loop k t). destruct (leg_loop k t). reflexivity.
Qed.
Lemma leg_loop_eq N t : leg_loop N t = legendre N t.
Proof.
  induction N as [|N IH]; [ reflexivity | ]. rewrite leg_loop_S, IH. cbn [legendre]. destruct (legendre N t) as [a b]. cbn [fst snd].
  rewrite S_INR. pose proof (pos_INR N). f_equal. field. lra.
Qed.
Definition root_near (N : nat) (d t : R) : Prop := exists r, LP N r = 0 /\ -1 < r < 1 /\ Rabs (t - r) <= d.
Lemma eps_pos : 0 < gauss_eps. Proof. unfold gauss_eps. lra. Qed.
(* whatever the loop returns came from one last Newton step shorter than eps *)
Definition last_step (N : nat) (t pp : R) : Prop :=
  exists t1, t1 * t1 <> 1 /\ pp = dLP N t1 /\ pp <> 0 /\ t = t1 - LP N t1 / pp /\ Rabs (t - t1) < gauss_eps.
Lemma newton_step N t : (1 <= N)%nat -> t * t - 1 <> 0 -> let '(p1, p2) := leg_loop N t in
  p1 = LP N t /\ INR N * (t * p1 - p2) / (t * t - 1) = dLP N t.
Proof.
  intros HN Ht. destruct N as [|m]; [ lia | ]. rewrite leg_loop_eq, legendre_pair. split; [ reflexivity | ].
  apply (Rmult_eq_reg_l (t * t - 1)); [ | exact Ht ]. destruct (dLP_a m t) as [_ C].
  replace ((t * t - 1) * dLP (S m) t) with (- ((1 - t * t) * dLP (S m) t)) by ring. rewrite C, S_INR. field. exact Ht.
Qed.
Lemma gauss_newton_last fuel N : (1 <= N)%nat -> forall t t1 pp t' pp',
  (Rabs (t - t1) < gauss_eps -> last_step N t pp) ->
  gauss_newton fuel N t t1 pp = Ok (t', pp') -> last_step N t' pp'.
Proof.
  intros HN. induction fuel as [|fuel IH]; intros t t1 pp t' pp' Hl H; cbn [gauss_newton] in H.
  - unfold Rltb in H. destruct (Rlt_dec (Rabs (t - t1)) gauss_eps) as [L|L]; [ | discriminate ]. injection H as <- <-. apply Hl, L.
  - unfold Rltb in H. destruct (Rlt_dec (Rabs (t - t1)) gauss_eps) as [L|L]; [ injection H as <- <-; apply Hl, L | ].
    destruct (leg_loop N t) as [p1 p2] eqn:EL. destruct (Req_EM_T (t * t - 1) 0) as [|Ht]; [ discriminate | ].
    pose proof (newton_step N t HN Ht) as S. rewrite EL in S. destruct S as [S1 S2].
    destruct (Req_EM_T (INR N * (t * p1 - p2) / (t * t - 1)) 0) as [|Hp]; [ discriminate | ].
    apply IH in H; [ exact H | ]. intros Hs. exists t. split; [ lra | ]. split; [ exact S2 | ]. split; [ exact Hp | ]. split; [ | exact Hs ]. rewrite S1. reflexivity.
Qed.
Lemma last_step_near N t pp : (1 <= N)%nat -> last_step N t pp -> root_near N (INR (N + 1) * gauss_eps) t.
Proof.
  intros HN (t1 & _ & E & Hp & Et & Hs). subst pp. destruct (newton_near N t1 HN Hp) as (r & Hr & I & D).
  exists r. split; [ exact Hr | ]. split; [ exact I | ].
  assert (Hd : Rabs (LP N t1 / dLP N t1) < gauss_eps).
  { rewrite Et in Hs. replace (t1 - LP N t1 / dLP N t1 - t1) with (- (LP N t1 / dLP N t1)) in Hs by ring. rewrite Rabs_Ropp in Hs. exact Hs. }
  replace (t - r) with ((t - t1) + (t1 - r)) by ring. apply Rle_trans with (1 := Rabs_triang _ _).
  rewrite plus_INR. change (INR 1) with 1. pose proof (pos_INR N). pose proof (Rabs_pos (LP N t1 / dLP N t1)).
  assert (INR N * Rabs (LP N t1 / dLP N t1) <= INR N * gauss_eps) by (apply Rmult_le_compat_l; lra). lra.
Qed.
Lemma near_inside N t : (1 <= N <= 1000)%nat -> root_near N (INR (N + 1) * gauss_eps) t -> -1 < t < 1.
Proof.
  intros [H1 H2] (r & Hr & I & D). destruct N as [|m]; [ lia | ]. pose proof (root_margin m r Hr) as M. set (n := INR (S m)) in *.
  assert (B : 1 <= n <= 1000).
  { unfold n. split; [ rewrite S_INR; pose proof (pos_INR m); lra | ]. replace 1000 with (INR 1000) by (cbn; lra). apply le_INR. lia. }
  assert (E : INR (S m + 1) = n + 1) by (rewrite plus_INR; reflexivity). rewrite E in D. unfold gauss_eps in D.
  assert (Q : (n + 1) * (3 * / 10 ^ 16) < / (2 * (n * n) * (n * n))).
  { assert (n * n <= 1000000) by nra. assert (1 <= n * n) by nra. set (q := n * n) in *.
    assert (K : q * q <= 1000000 * 1000000) by nra. assert (0 < q * q) by nra.
    apply (Rmult_lt_reg_r (2 * q * q)); [ nra | ]. rewrite Rinv_l by nra.
    replace ((n + 1) * (3 * / 10 ^ 16) * (2 * q * q)) with ((6 * / 10 ^ 16) * ((n + 1) * (q * q))) by ring.
    assert ((n + 1) * (q * q) <= 1001 * (1000000 * 1000000)) by (apply Rmult_le_compat; lra). lra. }
  assert (A : Rabs t < 1). { replace t with ((t - r) + r) by ring. apply Rle_lt_trans with (1 := Rabs_triang _ _). lra. }
  apply Rabs_def2 in A. lra.
Qed.
(* odd N: the middle start is 0 and stays 0 *)
Lemma LP_odd_0 k : LP (2 * k + 1) 0 = 0.
Proof.
  pose proof (LP_odd (2 * k + 1) 0) as H. rewrite Ropp_0, pow_add, pow_1_even in H. change ((-1) ^ 1) with (-1 * 1) in H. lra.
Qed.
Lemma middle_start k : cos (PI * (INR (S k) - 0.25) / (INR (2 * k + 1) + 0.5)) = 0.
Proof.
  rewrite <- cos_PI2. f_equal. rewrite S_INR, plus_INR, mult_INR. cbn [INR]. pose proof (pos_INR k). generalize PI; intros p.
  replace 0.25 with (1/4) by lra. replace 0.5 with (1/2) by lra. field. lra.
Qed.
Lemma newton_zero fuel N : (1 <= N)%nat -> LP N 0 = 0 -> forall t1 pp t' pp', gauss_newton fuel N 0 t1 pp = Ok (t', pp') -> t' = 0.
Proof.
  intros HN H0. induction fuel as [|fuel IH]; intros t1 pp t' pp' H; cbn [gauss_newton] in H.
  - unfold Rltb in H. destruct (Rlt_dec (Rabs (0 - t1)) gauss_eps) as [L|L]; [ | discriminate ]. injection H as <- <-. reflexivity.
  - unfold Rltb in H. destruct (Rlt_dec (Rabs (0 - t1)) gauss_eps) as [L|L]; [ injection H as <- <-; reflexivity | ].
    destruct (leg_loop N 0) as [p1 p2] eqn:EL. destruct (Req_EM_T (0 * 0 - 1) 0) as [|Ht]; [ discriminate | ].
    pose proof (newton_step N 0 HN Ht) as S. rewrite EL in S. destruct S as [S1 S2].
    destruct (Req_EM_T (INR N * (0 * p1 - p2) / (0 * 0 - 1)) 0) as [|Hp]; [ discriminate | ].
    replace (0 - p1 / (INR N * (0 * p1 - p2) / (0 * 0 - 1))) with 0 in H; [ apply IH in H; exact H | ]. rewrite S1, H0. unfold Rdiv. ring.
Qed.

Lemma ofold_pinv {S X} (P : list X -> S -> Prop) (f : S -> X -> outcome S) l s0 s' :
  P [] s0 -> (forall d x r s s1, l = d ++ x :: r -> P d s -> f s x = Ok s1 -> P (d ++ [x]) s1) ->
  ofold f l s0 = Ok s' -> P l s'.
Proof.
  intros H0 HS. assert (G : forall r d s, l = d ++ r -> P d s -> ofold f r s = Ok s' -> P l s').
  { induction r as [|x r IH]; intros d s E Pd H; cbn [ofold] in H.
    - injection H as <-. rewrite app_nil_r in E. subst. exact Pd.
    - destruct (f s x) as [s1| | |] eqn:F; try discriminate. cbn [obind] in H.
      apply (IH (d ++ [x]) s1); [ rewrite <- app_assoc; exact E | eapply HS; eauto | exact H ]. }
  apply (G l []); [ reflexivity | exact H0 ].
Qed.
Definition newton_map (n : nat) (x : R) : R := x - LP n x / dLP n x.
Lemma iter_in {A} (f : A -> A) k x : Nat.iter k f (f x) = Nat.iter (S k) f x.
Proof. induction k as [|k IHk]; [ reflexivity | ]. cbn in *. f_equal. exact IHk. Qed.
Lemma gauss_newton_iter fuel N : (1 <= N)%nat -> forall t t1 pp t' pp',
  gauss_newton fuel N t t1 pp = Ok (t', pp') -> exists k, t' = Nat.iter k (newton_map N) t.
Proof.
  intros HN. induction fuel as [|fuel IH]; intros t t1 pp t' pp' H; cbn [gauss_newton] in H.
  - destruct (Rltb (Rabs (t - t1)) gauss_eps); [ | discriminate ]. injection H as <- <-. exists O. reflexivity.
  - destruct (Rltb (Rabs (t - t1)) gauss_eps); [ injection H as <- <-; exists O; reflexivity | ].
    destruct (leg_loop N t) as [p1 p2] eqn:EL. destruct (Req_EM_T (t * t - 1) 0) as [|Ht]; [ discriminate | ].
    pose proof (newton_step N t HN Ht) as S. rewrite EL in S. destruct S as [S1 S2]. rewrite S2, S1 in H.
    destruct (Req_EM_T (dLP N t) 0) as [|Hp]; [ discriminate | ].
    apply IH in H. destruct H as [k Hk]. exists (S k). rewrite Hk. apply (iter_in (newton_map N)).
Qed.
(* what one pass of the loop leaves in cells i-1 and N-i *)
Definition node_pair (N : nat) (x w : list R) (j : nat) : Prop :=
  exists t pp, last_step N t pp /\ (exists k, t = Nat.iter k (newton_map N) (cos (PI * (INR (S j) - 0.25) / (INR N + 0.5)))) /\ (1 - t * t) * pp * pp <> 0 /\ ((N = 2 * j + 1)%nat -> t = 0) /\
    nth j x 0 = - t /\ nth (N - 1 - j) x 0 = t /\
    nth j w 0 = 2 / ((1 - t * t) * pp * pp) /\ nth (N - 1 - j) w 0 = 2 / ((1 - t * t) * pp * pp).
Lemma awrite_nth {A} (a a' : list A) i v d : awrite a i v = Ok a' ->
  (i < length a)%nat /\ length a' = length a /\ nth i a' d = v /\ forall j, j <> i -> nth j a' d = nth j a d.
Proof.
  intros H. destruct (awrite_inv a a' i v H) as (L & L' & V & O). split; [ exact L | ]. split; [ exact L' | ].
  split; [ apply nth_error_nth; exact V | ]. intros j Hj. specialize (O j Hj).
  destruct (nth_error a j) eqn:E; [ rewrite !(nth_error_nth _ _ d O); symmetry; apply nth_error_nth; exact E | ].
  rewrite !nth_overflow; [ reflexivity | | ]; apply nth_error_None; congruence.
Qed.
Lemma gauss_pairs fuel N x w x' w' : (1 <= N)%nat -> gauss fuel N (x, w) = Ok (x', w') ->
  length x' = length x /\ length w' = length w /\
  (forall k, (N <= k)%nat -> nth k x' 0 = nth k x 0 /\ nth k w' 0 = nth k w 0) /\
  forall j, (j < (N + 1) / 2)%nat -> node_pair N x' w' j.
Proof.
  intros HN H. unfold gauss in H.
  pose (Q := fun (d : list nat) (s : list R * list R) => length (fst s) = length x /\ length (snd s) = length w /\
     (forall k, (N <= k)%nat -> nth k (fst s) 0 = nth k x 0 /\ nth k (snd s) 0 = nth k w 0) /\
     forall j, (j < length d)%nat -> node_pair N (fst s) (snd s) j).
  apply (ofold_pinv Q) in H.
  - destruct H as (A & B & C & D). rewrite seq_length in D. cbn [fst snd] in *. auto.
  - unfold Q. cbn [fst snd length]. repeat split; intros; lia.
  - clear H. intros d i r [xa wa] [xb wb] E (A & B & C & D) H. cbn [fst snd] in *.
    assert (Ei : i = S (length d) /\ (S (length d) <= (N + 1) / 2)%nat).
    { assert (L : (length d < (N + 1) / 2)%nat).
      { apply (f_equal (@length nat)) in E. rewrite seq_length, app_length in E. cbn [length] in E. lia. }
      split; [ | lia ]. apply (f_equal (fun l => nth (length d) l 0%nat)) in E. rewrite seq_nth in E by exact L.
      rewrite app_nth2, Nat.sub_diag in E by lia. cbn [nth] in E. lia. }
    destruct Ei as [-> Hi]. assert (H2 : (2 * S (length d) <= N + 1)%nat).
    { pose proof (Nat.mul_div_le (N + 1) 2). lia. }
    cbn beta iota in H. set (i := S (length d)) in *.
    destruct (gauss_newton fuel N _ 1 0) as [[t pp]| | |] eqn:EN; try discriminate. cbn [obind] in H.
    destruct (awrite xa (i - 1) (- t)) as [x1| | |] eqn:W1; try discriminate. cbn [obind] in H.
    destruct (awrite x1 (N - i) t) as [x2| | |] eqn:W2; try discriminate. cbn [obind] in H.
    destruct (Req_EM_T ((1 - t * t) * pp * pp) 0) as [|NZ]; [ discriminate | ].
    destruct (awrite wa (i - 1) _) as [w1| | |] eqn:W3; try discriminate. cbn [obind] in H.
    destruct (awrite_nth _ _ _ _ 0 W1) as (L1 & M1 & V1 & O1). destruct (awrite_nth _ _ _ _ 0 W2) as (L2 & M2 & V2 & O2).
    destruct (awrite_nth _ _ _ _ 0 W3) as (L3 & M3 & V3 & O3).
    destruct (aread w1 (i - 1)) as [wi| | |] eqn:R1; try discriminate. cbn [obind] in H.
    assert (Ewi : wi = 2 / ((1 - t * t) * pp * pp)).
    { unfold aread in R1. destruct (nth_error w1 (i - 1)) eqn:E1; [ | discriminate ]. rewrite (nth_error_nth _ _ 0 E1) in V3. congruence. }
    destruct (awrite w1 (N - i) wi) as [w2| | |] eqn:W4; try discriminate. cbn [obind] in H.
    destruct (awrite_nth _ _ _ _ 0 W4) as (L4 & M4 & V4 & O4).
    assert (xb = x2 /\ wb = w2) as [-> ->] by (split; congruence). clear H.
    assert (HL : last_step N t pp).
    { destruct (Rlt_dec (Rabs (cos (PI * (INR i - 0.25) / (INR N + 0.5)) - 1)) gauss_eps) as [Q1|Q1].
      - exfalso. apply NZ. assert (pp = 0) as ->; [ | ring ].
        destruct fuel; cbn [gauss_newton] in EN; unfold Rltb in EN; destruct (Rlt_dec _ gauss_eps) in EN; try contradiction; congruence.
      - refine (gauss_newton_last fuel N HN _ 1 0 _ _ _ EN). intros; contradiction. }
    assert (Z : (N = 2 * length d + 1)%nat -> t = 0).
    { intros EM. subst N. unfold i in EN. rewrite middle_start in EN. eapply newton_zero; [ | | exact EN ]; [ lia | apply LP_odd_0 ]. }
    pose proof (gauss_newton_iter fuel N HN _ 1 0 _ _ EN) as HI.
    unfold Q. cbn [fst snd]. split; [ congruence | ]. split; [ congruence | ]. split.
    + intros k Hk. rewrite O2, O1, O4, O3 by (unfold i in *; lia). apply C, Hk.
    + intros j Hj. rewrite app_length in Hj. cbn [length] in Hj. destruct (Nat.eq_dec j (length d)) as [->|Hne].
      * replace (i - 1)%nat with (length d) in * by (unfold i; lia). replace (N - i)%nat with (N - 1 - length d)%nat in * by (unfold i; lia).
        exists t, pp. split; [ exact HL | ]. split; [ exact HI | ]. split; [ exact NZ | ]. split; [ exact Z | ].
        destruct (Nat.eq_dec (length d) (N - 1 - length d)) as [Em|Em].
        -- rewrite <- Em in *. rewrite V2, V4, Ewi, (Z ltac:(unfold i in H2; lia)). rewrite Ropp_0. auto.
        -- rewrite V2, V4, Ewi, O2, V1, O4, V3 by exact Em. auto.
      * destruct (D j ltac:(lia)) as (t0 & p0 & K1 & KI & K2 & K3 & K4 & K5 & K6 & K7). exists t0, p0.
        split; [ exact K1 | ]. split; [ exact KI | ]. split; [ exact K2 | ]. split; [ exact K3 | ].
        rewrite !O2, !O1, !O4, !O3 by (unfold i in *; lia). auto.
Qed.

Lemma half_bound N j : (j < (N + 1) / 2)%nat <-> (2 * j + 1 <= N)%nat.
Proof.
  pose proof (Nat.div_mod (N + 1) 2 ltac:(lia)). pose proof (Nat.mod_upper_bound (N + 1) 2 ltac:(lia)). lia.
Qed.
(* one cell *)
Definition node_cell (N : nat) (x w : R) : Prop :=
  root_near N (INR (N + 1) * gauss_eps) x /\
  (exists s, Rabs (x - s) < gauss_eps /\ (1 - x * x) * dLP N s * dLP N s <> 0 /\ w = 2 / ((1 - x * x) * dLP N s * dLP N s)).
Lemma root_near_opp N d t : root_near N d t -> root_near N d (- t).
Proof.
  intros (r & Hr & I & D). exists (- r). rewrite LP_odd, Hr. split; [ ring | ]. split; [ lra | ].
  replace (- t - - r) with (- (t - r)) by ring. rewrite Rabs_Ropp. exact D.
Qed.
Lemma deriv_opp (f : R -> R) (x df : R) : is_derive f (- x) df -> is_derive (fun t => f (- t)) x (- df).
Proof.
  intros H. auto_derive; [ exists df; exact H | ].
  pose proof (is_derive_unique _ _ _ H) as U. change (Derive (fun y => f y) (- x)) with (Derive f (- x)). rewrite U. ring.
Qed.
Lemma dLP_odd N s : dLP N (- s) * dLP N (- s) = dLP N s * dLP N s.
Proof.
  assert (H : dLP N (- s) = (-1) ^ (S N) * dLP N s).
  { assert (D1 : is_derive (fun t => LP N (- t)) s (- dLP N (- s))).
    { apply deriv_opp, LP_derive. }
    assert (D2 : is_derive (fun t => LP N (- t)) s ((-1) ^ N * dLP N s)).
    { apply (is_derive_ext (fun t => (-1) ^ N * LP N t)); [ intros t; symmetry; apply LP_odd | ]. apply is_derive_scal, LP_derive. }
    pose proof (is_derive_unique _ _ _ D1) as U1. pose proof (is_derive_unique _ _ _ D2) as U2. cbn [pow]. rewrite U1 in U2. lra. }
  rewrite H. transitivity (((-1) ^ S N * (-1) ^ S N) * (dLP N s * dLP N s)); [ ring | ]. rewrite pow_m1_sq. ring.
Qed.
Lemma gauss_cells fuel N x w x' w' : (1 <= N)%nat -> gauss fuel N (x, w) = Ok (x', w') ->
  length x' = length x /\ length w' = length w /\
  (forall k, (N <= k)%nat -> nth k x' 0 = nth k x 0 /\ nth k w' 0 = nth k w 0) /\
  forall j, (j < N)%nat -> node_cell N (nth j x' 0) (nth j w' 0) /\
    nth (N - 1 - j) x' 0 = - nth j x' 0 /\ nth (N - 1 - j) w' 0 = nth j w' 0 /\
    ((2 * j + 1 <= N)%nat -> exists k, nth j x' 0 = - Nat.iter k (newton_map N) (cos (PI * (INR j + 0.75) / (INR N + 0.5)))).
Proof.
  intros HN H. destruct (gauss_pairs fuel N x w x' w' HN H) as (A & B & C & D).
  split; [ exact A | ]. split; [ exact B | ]. split; [ exact C | ].
  assert (CELL : forall t pp, last_step N t pp -> (1 - t * t) * pp * pp <> 0 -> node_cell N t (2 / ((1 - t * t) * pp * pp)) /\ node_cell N (- t) (2 / ((1 - t * t) * pp * pp))).
  { intros t pp HL NZ. pose proof (last_step_near N t pp HN HL) as RN. destruct HL as (s & _ & Ep & _ & _ & Hs). split.
    - split; [ exact RN | ]. exists s. subst pp. auto.
    - split; [ apply root_near_opp, RN | ]. exists (- s). replace (- t - - s) with (- (t - s)) by ring. rewrite Rabs_Ropp. split; [ exact Hs | ].
      replace ((1 - - t * - t) * dLP N (- s) * dLP N (- s)) with ((1 - t * t) * (dLP N (- s) * dLP N (- s))) by ring.
      rewrite dLP_odd. subst pp. rewrite Rmult_assoc in NZ. split; [ exact NZ | ]. f_equal. ring. }
  intros j Hj. destruct (le_lt_dec (2 * j + 1) N) as [L|L].
  - destruct (D j (proj2 (half_bound N j) L)) as (t & pp & K1 & KI & K2 & K3 & K4 & K5 & K6 & K7).
    rewrite K4, K5, K6, K7. destruct (CELL t pp K1 K2). split; [ assumption | ]. split; [ ring | ]. split; [ reflexivity | ]. intros _. destruct KI as [k EK].
    exists k. replace (INR j + 0.75) with (INR (S j) - 0.25) by (rewrite S_INR; lra). rewrite EK. reflexivity.
  - destruct (D (N - 1 - j)%nat (proj2 (half_bound N (N - 1 - j)) ltac:(lia))) as (t & pp & K1 & KI & K2 & K3 & K4 & K5 & K6 & K7).
    replace (N - 1 - (N - 1 - j))%nat with j in * by lia. rewrite K4, K5, K6, K7. destruct (CELL t pp K1 K2). split; [ assumption | ]. split; [ reflexivity | ]. split; [ reflexivity | ]. intros; lia.
Qed.
(* separated nodes: every root is found *)
Lemma all_roots N (r : nat -> R) t : (forall i, (i < N)%nat -> LP N (r i) = 0) -> (forall i j, (i < j < N)%nat -> r i <> r j) ->
  LP N t = 0 -> exists i, (i < N)%nat /\ t = r i.
Proof.
  intros Hr Hd Ht. destruct (LP_deg N) as (c & Hc & Pc). rewrite (pdeg_roots N c (LP N) r Pc Hr Hd) in Ht.
  assert (Z : prodn (fun j => t - r j) N = 0) by (apply Rmult_integral in Ht; destruct Ht; [ lra | assumption ]).
  clear - Z. induction N as [|N IH]; cbn [prodn] in Z; [ lra | ]. apply Rmult_integral in Z. destruct Z as [Z|Z].
  - destruct (IH Z) as (i & Hi & E). exists i. split; [ lia | exact E ].
  - exists N. split; [ lia | lra ].
Qed.
Lemma separated_all N d (x : nat -> R) : (forall j, (j < N)%nat -> root_near N d (x j)) ->
  (forall i j, (i < j < N)%nat -> 2 * d < Rabs (x i - x j)) ->
  forall t, LP N t = 0 -> exists j, (j < N)%nat /\ Rabs (x j - t) <= d.
Proof.
  intros Hn Hs t Ht. destruct (finite_choice (fun i r => LP N r = 0 /\ Rabs (x i - r) <= d) N) as (r & Hr).
  { intros i Hi. destruct (Hn i Hi) as (r & A & _ & B). exists r. auto. }
  destruct (all_roots N r t) as (i & Hi & E); [ intros i Hi; apply Hr, Hi | | exact Ht | exists i; split; [ exact Hi | subst t; apply Hr, Hi ] ].
  intros i j Hij E. specialize (Hs i j Hij). destruct (Hr i ltac:(lia)) as [_ A]. destruct (Hr j ltac:(lia)) as [_ B]. rewrite <- E in B.
  replace (x i - x j) with ((x i - r i) + - (x j - r i)) in Hs by ring. pose proof (Rabs_triang (x i - r i) (- (x j - r i))) as T. rewrite Rabs_Ropp in T. lra.
Qed.

(* ---------- roots() ---------- *)
Section Gsl.
Variable Pl : nat -> R -> R.
Hypothesis HP : forall l t, Pl l t = LP l t.
Lemma gsl_step_eq n x x1 : (1 <= n)%nat -> gsl_step Pl n x = Ok x1 -> x1 = newton_map n x /\ dLP n x <> 0.
Proof.
  intros Hn. unfold gsl_step. destruct (Req_EM_T (x * x - 1) 0) as [|A]; [ discriminate | ]. destruct n as [|m]; [ lia | ].
  rewrite (dLegendre_eq Pl m x HP A). destruct (Req_EM_T (dLP (S m) x) 0) as [|B]; [ discriminate | ].
  intros H. split; [ | exact B ]. rewrite HP in H. unfold newton_map. congruence.
Qed.
Lemma gsl_newton_out n : (1 <= n)%nat -> forall more x t, gsl_newton Pl more n x = Ok t ->
  exists k, (1 <= k <= more + 1)%nat /\ t = Nat.iter k (newton_map n) x /\
    (k = (more + 1)%nat \/ root_near n (INR (n + 1) * / 10 ^ 9 * Rabs t) t).
Proof.
  intros Hn. induction more as [|more IH]; intros x t H; cbn [gsl_newton] in H;
    destruct (gsl_step Pl n x) as [x1| | |] eqn:E; try discriminate; cbn [obind] in H;
    destruct (gsl_step_eq n x x1 Hn E) as [E1 Hd].
  - exists 1%nat. split; [ lia | ]. cbn [Nat.iter nat_rect]. destruct (gsl_close x1 x); injection H as <-; auto.
  - destruct (gsl_close x1 x) eqn:C.
    + injection H as <-. exists 1%nat. split; [ lia | ]. split; [ exact E1 | ]. right.
      assert (Hs : Rabs (x1 - x) <= / 10 ^ 9 * Rabs x1).
      { unfold gsl_close, Rltb in C. destruct (Rlt_dec (Rabs (x1 - x)) (/ 10 ^ 9 * Rabs x1)); [ lra | ].
        destruct (Req_EM_T x1 x) as [->|]; [ | discriminate ]. rewrite Rminus_diag_eq, Rabs_R0 by reflexivity. pose proof (Rabs_pos x). lra. }
      destruct (newton_near n x Hn Hd) as (r & Hr & I & D). exists r. split; [ exact Hr | ]. split; [ exact I | ].
      assert (Ed : Rabs (LP n x / dLP n x) = Rabs (x1 - x)) by (rewrite E1; unfold newton_map; rewrite <- Rabs_Ropp; f_equal; ring).
      rewrite Ed in D. replace (x1 - r) with ((x1 - x) + (x - r)) by ring. apply Rle_trans with (1 := Rabs_triang _ _).
      rewrite plus_INR. change (INR 1) with 1. pose proof (pos_INR n). pose proof (Rabs_pos (x1 - x)).
      assert (INR n * Rabs (x1 - x) <= INR n * (/ 10 ^ 9 * Rabs x1)) by (apply Rmult_le_compat_l; lra). lra.
    + destruct (IH x1 t H) as (k & Hk & Et & Hc). exists (S k). split; [ lia | ]. split.
      * rewrite Et, E1. apply (iter_in (newton_map n)).
      * destruct Hc as [->|Hc]; [ left; lia | right; exact Hc ].
Qed.
Lemma gsl_roots_out n q : (1 <= n)%nat -> gsl_roots Pl n = Ok q ->
  length q = n /\ forall i, (i < n)%nat -> exists k, (1 <= k <= 100)%nat /\
    nth i q 0 = Nat.iter k (newton_map n) (gsl_start n i) /\ (k = 100%nat \/ root_near n (INR (n + 1) * / 10 ^ 9 * Rabs (nth i q 0)) (nth i q 0)).
Proof.
  intros Hn H. unfold gsl_roots in H.
  pose (Q := fun (d : list nat) (s : list R) => length s = length d /\ forall i, (i < length d)%nat -> exists k, (1 <= k <= 100)%nat /\
    nth i s 0 = Nat.iter k (newton_map n) (gsl_start n i) /\ (k = 100%nat \/ root_near n (INR (n + 1) * / 10 ^ 9 * Rabs (nth i s 0)) (nth i s 0))).
  apply (ofold_pinv Q) in H.
  - destruct H as [A B]. rewrite seq_length in A, B. auto.
  - split; [ reflexivity | ]. cbn [length]. intros; lia.
  - clear H. intros d i r s s1 E [A B] H.
    assert (Ei : i = length d).
    { assert (L : (length d < n)%nat) by (apply (f_equal (@length nat)) in E; rewrite seq_length, app_length in E; cbn [length] in E; lia).
      apply (f_equal (fun l => nth (length d) l 0%nat)) in E. rewrite seq_nth, app_nth2, Nat.sub_diag in E by lia. cbn [nth] in E. lia. }
    destruct (gsl_newton Pl 99 n (gsl_start n i)) as [t| | |] eqn:EN; try discriminate. cbn [obind] in H.
    assert (s1 = s ++ [t]) as -> by congruence. split; [ rewrite !app_length; cbn [length]; lia | ].
    intros j Hj. rewrite app_length in Hj. cbn [length] in Hj. destruct (Nat.eq_dec j (length d)) as [->|Hne].
    + rewrite app_nth2, A, Nat.sub_diag by lia. cbn [nth]. rewrite <- Ei. exact (gsl_newton_out n Hn 99 _ _ EN).
    + rewrite app_nth1 by lia. apply B. lia.
Qed.
End Gsl.
