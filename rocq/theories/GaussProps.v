(* C73, C74: the Gauss-Legendre quadrature routines. *)
From Coq Require Import Reals Lra Lia.
From Coquelicot Require Import Coquelicot.
From Verif Require Import Common ArrayLib SwpModel SwpProofs GridSpec GridModel GridPropsLemmas GridProps GridProofs PermModel PotentialSpec
  LegendreMath LegendreRoots LegendreQuad LegendreBound GaussModel GaussProofs.
Open Scope R_scope.

(* C73: calc_gauss_points with the N zeros of P_N writes, in its N cells and nowhere else, nodes inside the interval and
   positive weights whose rule integrates every polynomial of degree at most 2N-1 exactly. *)
Theorem C73_gauss_points Pl N roots lo hi off x w :
  (forall l t, Pl l t = P l t) ->                        (* gsl_sf_legendre_Pl *)
  (1 <= N)%nat -> length roots = N -> NoDup roots -> (forall t, In t roots -> P N t = 0) ->
  (off + N <= length x)%nat -> (off + N <= length w)%nat ->
  exists x' w', calc_gauss_points roots (dLegendre Pl N) off lo hi (x, w) = Ok (x', w') /\
    length x' = length x /\ length w' = length w /\
    (forall k, (k < off \/ off + N <= k)%nat -> nth k x' 0 = nth k x 0 /\ nth k w' 0 = nth k w 0) /\
    (lo < hi -> forall j, (j < N)%nat -> lo < nth (off + j) x' 0 < hi /\ 0 < nth (off + j) w' 0) /\
    forall (c : nat -> R) d, (d <= 2 * N)%nat ->
      is_RInt (fun y => sum (fun k => c k * y ^ k) d) lo hi
        (sum (fun j => nth (off + j) w' 0 * sum (fun k => c k * nth (off + j) x' 0 ^ k) d) N).
Proof. exact (gauss_points_exact Pl N roots lo hi off x w). Qed.
Print Assumptions C73_gauss_points.
(* the hypotheses on [roots] can be met for every N *)
Theorem C73_roots_exist N : exists roots, length roots = N /\ NoDup roots /\ forall t, In t roots -> P N t = 0.
Proof. exact (roots_exist N). Qed.
Print Assumptions C73_roots_exist.
Example C73_example : exists x' w', calc_gauss_points [0] (dLegendre P 1) 1 2 6 ([7;7;7], [8;8;8]) = Ok (x', w') /\
  nth 1 x' 0 = 4 /\ nth 1 w' 0 = 4 /\ nth 0 x' 0 = 7 /\ nth 2 w' 0 = 8.
Proof.
  assert (H0 : forall t, In t [0] -> P 1 t = 0) by (intros t [<-|[]]; apply LP1).
  destruct (C73_gauss_points P 1 [0] 2 6 1 [7;7;7] [8;8;8]) as (x' & w' & E & L1 & L2 & F & _ & Q);
    [ reflexivity | lia | reflexivity | constructor; [ intros [] | constructor ] | exact H0 | cbn; lia | cbn; lia | ].
  exists x', w'. split; [ exact E | ]. destruct (F 0%nat ltac:(lia)) as [F1 _]. destruct (F 2%nat ltac:(lia)) as [_ F2].
  pose proof (Q (fun _ => 1) 1%nat ltac:(lia)) as Q0. pose proof (Q (fun k => INR k) 2%nat ltac:(lia)) as Q1.
  assert (I0 : is_RInt (fun y : R => 1) 2 6 4) by (evar_last; [ apply (is_RInt_const 2 6 1) | unfold scal; cbn; unfold mult; cbn; lra ]).
  assert (I1 : is_RInt (fun y : R => y) 2 6 16).
  { evar_last; [ apply (is_RInt_derive (fun y => y * y / 2) (fun y => y)); intros; [ auto_derive; [ trivial | lra ] | apply continuous_id ] | ].
    unfold minus, plus, opp; cbn. lra. }
  apply (@is_RInt_unique R_CompleteNormedModule) in Q0. apply (@is_RInt_unique R_CompleteNormedModule) in Q1. apply (@is_RInt_unique R_CompleteNormedModule) in I0. apply (@is_RInt_unique R_CompleteNormedModule) in I1.
  assert (W : nth 1 w' 0 = 4).
  { rewrite <- I0. etransitivity; [ | etransitivity; [ symmetry; exact Q0 | ] ]; [ unfold sum; cbn [map seq fold_right pow Nat.add]; ring | ]. apply RInt_ext. intros y _. unfold sum; cbn [map seq fold_right pow]. cbn. ring. }
  assert (X : nth 1 w' 0 * nth 1 x' 0 = 16).
  { rewrite <- I1. etransitivity; [ | etransitivity; [ symmetry; exact Q1 | ] ]; [ unfold sum; cbn [map seq fold_right pow Nat.add INR]; ring | ]. apply RInt_ext. intros y _. unfold sum; cbn [map seq fold_right pow INR]. cbn. ring. }
  rewrite W in X. cbn [nth] in F1, F2. repeat split; lra.
Qed.

(* C74: whatever gauss() returns (it has no iteration limit; [fuel] bounds the iterations of a run that finishes) it has
   filled the first N cells with an antisymmetric set of nodes, each within (N+1) 3e-16 of a zero of P_N,
   reached by Newton's iteration from the usual starting value (upper half mirrored), and symmetric
   weights 2 / ((1-x^2) P_N'(s)^2) with |x - s| < 3e-16; up to N = 1000 all nodes are inside (-1,1) and all weights
   positive; and when the nodes are further apart than twice that accuracy, every zero of P_N is among them. *)
Theorem C74_gauss fuel N x w x' w' : (1 <= N)%nat -> gauss fuel N (x, w) = Ok (x', w') ->
  let accuracy := INR (N + 1) * (3 * / 10 ^ 16) in
  length x' = length x /\ length w' = length w /\
  (forall k, (N <= k)%nat -> nth k x' 0 = nth k x 0 /\ nth k w' 0 = nth k w 0) /\
  (forall j, (j < N)%nat ->
     nth (N - 1 - j) x' 0 = - nth j x' 0 /\ nth (N - 1 - j) w' 0 = nth j w' 0 /\
     (exists r, P N r = 0 /\ Rabs (nth j x' 0 - r) <= accuracy) /\
     ((2 * j + 1 <= N)%nat -> exists k dP, (forall y, is_derive (P N) y (dP y)) /\
        nth j x' 0 = - Nat.iter k (fun y => y - P N y / dP y) (cos (PI * (INR j + 0.75) / (INR N + 0.5)))) /\
     (exists s dP, Rabs (nth j x' 0 - s) < 3 * / 10 ^ 16 /\ is_derive (P N) s dP /\
        (1 - nth j x' 0 ^ 2) * dP ^ 2 <> 0 /\ nth j w' 0 = 2 / ((1 - nth j x' 0 ^ 2) * dP ^ 2)) /\
     ((N <= 1000)%nat -> -1 < nth j x' 0 < 1 /\ 0 < nth j w' 0)) /\
  ((forall i j, (i < j < N)%nat -> 2 * accuracy < Rabs (nth i x' 0 - nth j x' 0)) ->
   forall r, P N r = 0 -> exists j, (j < N)%nat /\ Rabs (nth j x' 0 - r) <= accuracy).
Proof.
  intros HN H accuracy. destruct (gauss_cells fuel N x w x' w' HN H) as (A & B & C & D).
  split; [ exact A | ]. split; [ exact B | ]. split; [ exact C | ]. split.
  - intros j Hj. destruct (D j Hj) as ((RN & s & Hs & NZ & Ew) & S1 & S2 & S3). split; [ exact S1 | ]. split; [ exact S2 | ].
    assert (En : (1 - nth j x' 0 ^ 2) * dLP N s ^ 2 = (1 - nth j x' 0 * nth j x' 0) * dLP N s * dLP N s) by ring.
    split; [ destruct RN as (r & R1 & _ & R2); exists r; split; [ exact R1 | exact R2 ] | ].
    split; [ intros Hh; destruct (S3 Hh) as [k Ek]; exists k, (dLP N); split; [ intros y; apply LP_derive | exact Ek ] | ]. split.
    + exists s, (dLP N s). split; [ exact Hs | ]. split; [ apply LP_derive | ]. rewrite En. split; [ exact NZ | exact Ew ].
    + intros HM. pose proof (near_inside N (nth j x' 0) (conj HN HM) RN) as I. split; [ exact I | ]. rewrite Ew.
      apply Rdiv_lt_0_compat; [ lra | ]. assert (dLP N s <> 0) by (intros Z; apply NZ; rewrite Z; ring).
      rewrite Rmult_assoc. apply Rmult_lt_0_compat; [ nra | ]. destruct (Rdichotomy _ _ H0); nra.
  - intros Hsep r Hr. apply (separated_all N accuracy (fun j => nth j x' 0)); [ intros j Hj; apply (D j Hj) | exact Hsep | exact Hr ].
Qed.
Print Assumptions C74_gauss.
Example C74_example : gauss 1 1 ([9], [9]) = Ok ([0], [2]).
Proof.
  unfold gauss. change (seq 1 ((1 + 1) / 2)) with [1%nat]. cbn [ofold obind].
  replace (PI * (INR 1 - 0.25) / (INR 1 + 0.5)) with (PI / 2) by (cbn [INR]; generalize PI; intros; lra). rewrite cos_PI2.
  cbn [gauss_newton]. assert (EPS : 0 < gauss_eps < 1) by (unfold gauss_eps; lra). unfold Rltb.
  destruct (Rlt_dec (Rabs (0 - 1)) gauss_eps) as [B|_]; [ rewrite Rabs_left in B; lra | ].
  rewrite leg_loop_eq. cbn [legendre INR]. destruct (Req_EM_T (0 * 0 - 1) 0); [ lra | ].
  match goal with |- context [Req_EM_T ?a 0] => destruct (Req_EM_T a 0) as [B|_] end; [ exfalso; field_simplify in B; lra | ].
  match goal with |- context [Rlt_dec (Rabs ?a) _] => replace a with 0 by (field; lra) end. rewrite Rabs_R0.
  destruct (Rlt_dec 0 gauss_eps) as [_|B]; [ | lra ]. cbn [obind].
  match goal with |- context [awrite [9] (1 - 1) (- ?a)] => replace a with 0 by (field; lra) end.
  match goal with |- context [(1 - 0 * 0) * ?a * ?a] => replace a with 1 by (field; lra) end.
  destruct (Req_EM_T ((1 - 0 * 0) * 1 * 1) 0); [ lra | ]. cbn. f_equal. f_equal. f_equal. lra.
Qed.
(* together with C16: the quadrature points of every wave-packet bin are inside the bin *)
Theorem C74_points_in_bins fuel n N bounds x w gx gw xs ws : (1 <= n <= 1000)%nat ->
  gauss fuel n (xs, ws) = Ok (gx, gw) -> length xs = n -> length ws = n ->
  length bounds = (N + 1)%nat -> length x = (n * N)%nat -> length w = (n * N)%nat ->
  exists x' w', quadrature_grids (fun _ => gx) (fun _ => gw) N n bounds (x, w) = Ok (x', w') /\
    forall b i, (b < N)%nat -> (i < n)%nat -> nth b bounds 0 < nth (b + 1) bounds 0 ->
      nth b bounds 0 < nth (b * n + i) x' 0 < nth (b + 1) bounds 0 /\ 0 < nth (b * n + i) w' 0.
Proof.
  intros Hn HG Lx Lw LB HX HW. destruct (C74_gauss fuel n xs ws gx gw ltac:(lia) HG) as (A & B & _ & D & _).
  destruct (quadrature_ok (fun _ => gx) (fun _ => gw) N n bounds x w) as (x' & w' & E & L1 & L2 & V); [ congruence | congruence | assumption .. | ].
  exists x', w'. split; [ exact E | ]. intros b i Hb Hi Hlt. destruct (V b i Hb Hi) as (V1 & V2). destruct (D i Hi) as (_ & _ & _ & _ & _ & I).
  destruct (I ltac:(lia)) as [I1 I2]. cbn beta in V1, V2. rewrite V1, V2. split; [ split; nra | ].
  apply Rmult_lt_0_compat; [ | exact I2 ]. apply Rmult_lt_0_compat; lra.
Qed.
Print Assumptions C74_points_in_bins.

(* roots() (GSL Newton solver): every value is the k-th Newton iterate of its starting point, k <= 100, and unless all 100
   iterations were used it is within (n+1) 1e-9 |t| of a zero of P_n. *)
Theorem C74_gsl_roots Pl n q : (forall l t, Pl l t = P l t) -> (1 <= n)%nat -> gsl_roots Pl n = Ok q ->
  length q = n /\ forall i, (i < n)%nat -> exists k dP, (1 <= k <= 100)%nat /\
    (forall y, is_derive (P n) y (dP y)) /\
    nth i q 0 = Nat.iter k (fun y => y - P n y / dP y) (cos (3.14159 * (INR (n - i) - 0.25) / (INR n + 0.5))) /\
    (k = 100%nat \/ exists r, P n r = 0 /\ -1 < r < 1 /\ Rabs (nth i q 0 - r) <= INR (n + 1) * / 10 ^ 9 * Rabs (nth i q 0)).
Proof.
  intros HP Hn H. destruct (gsl_roots_out Pl HP n q Hn H) as [L V]. split; [ exact L | ]. intros i Hi.
  destruct (V i Hi) as (k & Hk & E & C). exists k, (dLP n). split; [ exact Hk | ]. split; [ intros y; apply LP_derive | ].
  split; [ rewrite E; unfold gsl_start; do 5 f_equal; rewrite <- S_INR; f_equal; lia | ].
  destruct C as [C|(r & R1 & R2 & R3)]; [ left; exact C | right; exists r; auto ].
Qed.
Print Assumptions C74_gsl_roots.
Example C74_gsl_example : gsl_roots P 1 = Ok [0].
Proof.
  unfold gsl_roots. cbn [seq ofold obind]. set (s := gsl_start 1 0).
  assert (Hs : s * s - 1 <> 0).
  { unfold s, gsl_start. intros Z. set (y := _ / _) in Z. assert (Hy : 0 < y < PI).
    { unfold y. cbn [INR Nat.sub]. pose proof PI2_3_2. split; lra. }
    pose proof (sin_gt_0 y (proj1 Hy) (proj2 Hy)). pose proof (sin2_cos2 y) as S. unfold Rsqr in S. nra. }
  assert (D : forall y, y * y - 1 <> 0 -> dLegendre P 1 y = 1).
  { intros y Hy. unfold dLegendre. cbn [Nat.sub INR]. change (P 0 y) with (LP 0 y). change (P 1 y) with (LP 1 y). rewrite LP0, LP1. field. exact Hy. }
  assert (ST : forall y, y * y - 1 <> 0 -> gsl_step P 1 y = Ok 0).
  { intros y Hy. unfold gsl_step. destruct (Req_EM_T (y * y - 1) 0); [ contradiction | ]. rewrite (D y Hy).
    destruct (Req_EM_T 1 0); [ lra | ]. change (P 1 y) with (LP 1 y). rewrite LP1. f_equal. field. }
  clearbody s. unfold gsl_newton at 1. rewrite (ST s Hs). cbn [obind]. unfold gsl_close at 1, Rltb at 1. rewrite Rabs_R0.
  match goal with |- context [Rlt_dec ?a ?b] => destruct (Rlt_dec a b) as [B|_] end.
  { rewrite Rmult_0_r in B. pose proof (Rabs_pos (0 - s)). lra. }
  destruct (Req_EM_T 0 s); [ reflexivity | ]. rewrite (ST 0) by lra. cbn [obind]. unfold gsl_close at 1, Rltb at 1.
  match goal with |- context [Rlt_dec ?a ?b] => destruct (Rlt_dec a b) as [B|_] end; [ reflexivity | ].
  destruct (Req_EM_T 0 0); [ reflexivity | congruence ].
Qed.
