From Coq Require Import Reals Lra Psatz.
From Verif Require Import Common ArrayLib SwpModel SwpProofs GridModel GridSpec GridProofs PermModel PermSpec.
Open Scope R_scope.

(* ---------- kinematics ---------- *)
Lemma pi1_rad_sq p q x : -1 <= x <= 1 ->
  pi1_rad p q x = (1/2 * p + 3/4 * (q * x)) * (1/2 * p + 3/4 * (q * x)) + 9/16 * (q * q) * (1 - x * x).
Proof. intros. unfold pi1_rad. lra. Qed.
Lemma pi2_rad_sq p q x : pi2_rad p q x = (p - 1/2 * (q * x)) * (p - 1/2 * (q * x)) + 1/4 * (q * q) * (1 - x * x).
Proof. unfold pi2_rad. lra. Qed.
Lemma one_minus_sq x : -1 <= x <= 1 -> 0 <= 1 - x * x.
Proof. intros. nra. Qed.
Lemma pi1_rad_nonneg p q x : -1 <= x <= 1 -> 0 <= pi1_rad p q x.
Proof.
  intros H. rewrite pi1_rad_sq by exact H. pose proof (one_minus_sq x H).
  apply Rplus_le_le_0_compat; [ apply Rle_0_sqr | ]. apply Rmult_le_pos; [ | assumption ]. pose proof (Rle_0_sqr q). unfold Rsqr in *. lra.
Qed.
Lemma pi2_rad_nonneg p q x : -1 <= x <= 1 -> 0 <= pi2_rad p q x.
Proof.
  intros H. rewrite pi2_rad_sq. pose proof (one_minus_sq x H).
  apply Rplus_le_le_0_compat; [ apply Rle_0_sqr | ]. apply Rmult_le_pos; [ | assumption ]. pose proof (Rle_0_sqr q). unfold Rsqr in *. lra.
Qed.
Lemma pi1_pos p q x : 0 < q -> -1 < x < 1 -> 0 < pi1_tilde p q x.
Proof.
  intros Hq Hx. apply sqrt_lt_R0. rewrite pi1_rad_sq by lra.
  assert (0 < 1 - x * x) by nra. pose proof (Rle_0_sqr (1/2 * p + 3/4 * (q * x))). unfold Rsqr in *.
  assert (0 < 9/16 * (q * q) * (1 - x * x)) by (apply Rmult_lt_0_compat; nra). lra.
Qed.
Lemma pi2_pos p q x : 0 < q -> -1 < x < 1 -> 0 < pi2_tilde p q x.
Proof.
  intros Hq Hx. apply sqrt_lt_R0. rewrite pi2_rad_sq.
  assert (0 < 1 - x * x) by nra. pose proof (Rle_0_sqr (p - 1/2 * (q * x))). unfold Rsqr in *.
  assert (0 < 1/4 * (q * q) * (1 - x * x)) by (apply Rmult_lt_0_compat; nra). lra.
Qed.
Lemma pi1_sqr p q x : -1 <= x <= 1 -> pi1_tilde p q x * pi1_tilde p q x = pi1_rad p q x.
Proof. intros H. apply sqrt_sqrt, pi1_rad_nonneg, H. Qed.
Lemma pi2_sqr p q x : -1 <= x <= 1 -> pi2_tilde p q x * pi2_tilde p q x = pi2_rad p q x.
Proof. intros H. apply sqrt_sqrt, pi2_rad_nonneg, H. Qed.
Lemma energy_conserved p q x : -1 <= x <= 1 -> jacobi_energy (pi1_tilde p q x) (pi2_tilde p q x) = jacobi_energy p q.
Proof. intros H. unfold jacobi_energy. rewrite pi1_sqr, pi2_sqr by exact H. unfold pi1_rad, pi2_rad. lra. Qed.

Lemma ratio_range a n : 0 < n -> a * a <= n * n -> -1 <= a / n <= 1.
Proof.
  intros Hn H. assert (- n <= a <= n) by (split; nra).
  split; [ apply (Rmult_le_reg_r n) | apply (Rmult_le_reg_r n) ]; try exact Hn; unfold Rdiv; rewrite Rmult_assoc, Rinv_l; lra.
Qed.
Lemma cos1_range p q x : -1 <= x <= 1 -> 0 < pi1_tilde p q x -> -1 <= costheta1_raw p q x <= 1.
Proof.
  intros H Hp. apply ratio_range; [ exact Hp | ]. rewrite pi1_sqr, pi1_rad_sq by exact H. pose proof (one_minus_sq x H).
  assert (0 <= 9/16 * (q * q) * (1 - x * x)) by (apply Rmult_le_pos; [ pose proof (Rle_0_sqr q); unfold Rsqr in *; lra | assumption ]). lra.
Qed.
Lemma cos2_range p q x : -1 <= x <= 1 -> 0 < pi2_tilde p q x -> -1 <= costheta2_raw p q x <= 1.
Proof.
  intros H Hp. apply ratio_range; [ exact Hp | ]. rewrite pi2_sqr, pi2_rad_sq by exact H. pose proof (one_minus_sq x H).
  assert (0 <= 1/4 * (q * q) * (1 - x * x)) by (apply Rmult_le_pos; [ pose proof (Rle_0_sqr q); unfold Rsqr in *; lra | assumption ]). lra.
Qed.
Lemma clamp_id c : -1 <= c <= 1 -> clamp c = c.
Proof.
  intros H. unfold clamp. destruct (Rltb 1 c) eqn:E1; [ apply Rltb_true in E1; lra | ].
  destruct (Rltb c (-1)) eqn:E2; [ apply Rltb_true in E2; lra | reflexivity ].
Qed.

(* homogeneity: scaling both momenta scales the recoupled momenta *)
Lemma pi1_scale k p q x : 0 <= k -> -1 <= x <= 1 -> pi1_tilde (k * p) (k * q) x = k * pi1_tilde p q x.
Proof.
  intros Hk Hx. unfold pi1_tilde. replace (pi1_rad (k * p) (k * q) x) with ((k * k) * pi1_rad p q x) by (unfold pi1_rad; lra).
  rewrite sqrt_mult_alt by nra. rewrite sqrt_square by exact Hk. reflexivity.
Qed.
Lemma pi2_scale k p q x : 0 <= k -> -1 <= x <= 1 -> pi2_tilde (k * p) (k * q) x = k * pi2_tilde p q x.
Proof.
  intros Hk Hx. unfold pi2_tilde. replace (pi2_rad (k * p) (k * q) x) with ((k * k) * pi2_rad p q x) by (unfold pi2_rad; lra).
  rewrite sqrt_mult_alt by nra. rewrite sqrt_square by exact Hk. reflexivity.
Qed.

(* ---------- one direction ---------- *)
Lemma std_max_lt a b c : std_max a b < c <-> a < c /\ b < c.
Proof. unfold std_max. destruct (Rltb a b) eqn:E; [ apply Rltb_true in E | apply Rltb_false in E ]; lra. Qed.
Lemma std_min_gt a b c : c < std_min a b <-> c < a /\ c < b.
Proof. unfold std_min. destruct (Rltb b a) eqn:E; [ apply Rltb_true in E | apply Rltb_false in E ]; lra. Qed.

Lemma max_element_lt h t c : max_element h t < c <-> h < c /\ forall x, In x t -> x < c.
Proof.
  revert h; induction t as [|y t IH]; intros h; cbn.
  - split; [ intros H; split; [ exact H | intros x [] ] | tauto ].
  - unfold max_element in IH. rewrite IH. destruct (Rltb h y) eqn:E; [ apply Rltb_true in E | apply Rltb_false in E ].
    + split; [ intros [H1 H2]; split; [ lra | intros x [<-|Hx]; [ exact H1 | apply H2, Hx ] ]
             | intros [H1 H2]; split; [ apply H2; left; reflexivity | intros x Hx; apply H2; right; exact Hx ] ].
    + split; [ intros [H1 H2]; split; [ exact H1 | intros x [<-|Hx]; [ lra | apply H2, Hx ] ]
             | intros [H1 H2]; split; [ exact H1 | intros x Hx; apply H2; right; exact Hx ] ].
Qed.
Lemma min_element_gt h t c : c < min_element h t <-> c < h /\ forall x, In x t -> c < x.
Proof.
  revert h; induction t as [|y t IH]; intros h; cbn.
  - split; [ intros H; split; [ exact H | intros x [] ] | tauto ].
  - unfold min_element in IH. rewrite IH. destruct (Rltb y h) eqn:E; [ apply Rltb_true in E | apply Rltb_false in E ].
    + split; [ intros [H1 H2]; split; [ lra | intros x [<-|Hx]; [ exact H1 | apply H2, Hx ] ]
             | intros [H1 H2]; split; [ apply H2; left; reflexivity | intros x Hx; apply H2; right; exact Hx ] ].
    + split; [ intros [H1 H2]; split; [ exact H1 | intros x [<-|Hx]; [ lra | apply H2, Hx ] ]
             | intros [H1 H2]; split; [ exact H1 | intros x Hx; apply H2; right; exact Hx ] ].
Qed.

Lemma all_pairs4 (P : R -> Prop) a b c : (forall x, In x [a; b; c] -> P x) <-> P a /\ P b /\ P c.
Proof.
  split; [ intros H; repeat split; apply H; cbn; tauto | ].
  intros (A & B & C) x [<-|[<-|[<-|[]]]]; assumption.
Qed.

Lemma direction_hit_iff pp_l pp_u qp_l qp_u p_l p_u q_l q_u phi x :
  let s := sin phi in let c := cos phi in let z1 := pi1_tilde s c x in let z2 := pi2_tilde s c x in
  direction_hit pp_l pp_u qp_l qp_u p_l p_u q_l q_u phi x = true <->
  max_element (pp_l / s) [qp_l / c; p_l / z1; q_l / z2] < min_element (pp_u / s) [qp_u / c; p_u / z1; q_u / z2].
Proof.
  intros s c z1 z2. unfold direction_hit. fold s c z1 z2.
  rewrite max_element_lt. rewrite all_pairs4. rewrite !min_element_gt. rewrite !all_pairs4.
  destruct (Rltb _ _) eqn:E1.
  - apply Rltb_true in E1. destruct (Rltb (std_max (p_l / z1) _) _) eqn:E2.
    + apply Rltb_true in E2. rewrite Rltb_true. rewrite !std_max_lt, !std_min_gt in *. tauto.
    + apply Rltb_false in E2. split; [ discriminate | ]. intros H. exfalso.
      assert (std_max (p_l / z1) (q_l / z2) < std_min (p_u / z1) (q_u / z2)); [ | lra ].
      rewrite !std_max_lt, !std_min_gt. tauto.
  - apply Rltb_false in E1. split; [ discriminate | ]. intros H. exfalso.
    assert (std_max (pp_l / s) (qp_l / c) < std_min (pp_u / s) (qp_u / c)); [ | lra ].
    rewrite !std_max_lt, !std_min_gt. tauto.
Qed.

Lemma div_lt a s k : 0 < s -> (a / s < k <-> a < k * s).
Proof.
  intros Hs. split; intros H.
  - apply (Rmult_lt_compat_r s) in H; [ | exact Hs ]. unfold Rdiv in H. rewrite Rmult_assoc, Rinv_l, Rmult_1_r in H by lra. exact H.
  - apply (Rmult_lt_reg_r s); [ exact Hs | ]. unfold Rdiv. rewrite Rmult_assoc, Rinv_l, Rmult_1_r by lra. exact H.
Qed.
Lemma lt_div a s k : 0 < s -> (k < a / s <-> k * s < a).
Proof.
  intros Hs. split; intros H.
  - apply (Rmult_lt_compat_r s) in H; [ | exact Hs ]. unfold Rdiv in H. rewrite Rmult_assoc, Rinv_l, Rmult_1_r in H by lra. exact H.
  - apply (Rmult_lt_reg_r s); [ exact Hs | ]. unfold Rdiv. rewrite Rmult_assoc, Rinv_l, Rmult_1_r by lra. exact H.
Qed.

(* an admissible k exists along this direction *)
Lemma direction_hit_k pp_l pp_u qp_l qp_u p_l p_u q_l q_u phi x :
  let s := sin phi in let c := cos phi in
  0 < s -> 0 < c -> -1 < x < 1 ->
  direction_hit pp_l pp_u qp_l qp_u p_l p_u q_l q_u phi x = true <->
  exists k, pp_l < k * s < pp_u /\ qp_l < k * c < qp_u /\
            p_l < k * pi1_tilde s c x < p_u /\ q_l < k * pi2_tilde s c x < q_u.
Proof.
  intros s c Hs Hc Hx. rewrite direction_hit_iff. fold s c.
  pose proof (pi1_pos s c x Hc Hx) as H1. pose proof (pi2_pos s c x Hc Hx) as H2.
  set (z1 := pi1_tilde s c x) in *. set (z2 := pi2_tilde s c x) in *.
  set (lo := max_element _ _). set (hi := min_element _ _). split.
  - intros H. exists ((lo + hi) / 2).
    assert (A : lo < (lo + hi) / 2) by lra. assert (B : (lo + hi) / 2 < hi) by lra.
    unfold lo at 1 in A. unfold hi at 2 in B. apply max_element_lt in A. apply min_element_gt in B. rewrite all_pairs4 in A, B.
    destruct A as (A0 & A1 & A2 & A3). destruct B as (B0 & B1 & B2 & B3).
    rewrite <- !div_lt, <- !lt_div by assumption. tauto.
  - intros (k & K1 & K2 & K3 & K4). rewrite <- !div_lt, <- !lt_div in * by assumption.
    apply Rlt_trans with k.
    + unfold lo. rewrite max_element_lt, all_pairs4. tauto.
    + unfold hi. rewrite min_element_gt, all_pairs4. tauto.
Qed.

(* the contribution of a direction without admissible k is zero; with it, and positive data, it is positive *)
Lemma element_term_zero pp_l pp_u qp_l qp_u p_l p_u q_l q_u phi x wx w G :
  direction_hit pp_l pp_u qp_l qp_u p_l p_u q_l q_u phi x = false ->
  element_term pp_l pp_u qp_l qp_u p_l p_u q_l q_u x wx (sin phi) (cos phi) w G = 0.
Proof.
  intros H. assert (Hn : ~ direction_hit pp_l pp_u qp_l qp_u p_l p_u q_l q_u phi x = true) by congruence.
  rewrite direction_hit_iff in Hn. unfold element_term.
  set (lo := max_element _ _) in *. set (hi := min_element _ _) in *.
  destruct (Rltb hi lo) eqn:E; [ reflexivity | ]. apply Rltb_false in E. assert (lo = hi) as <- by lra.
  unfold Rminus. rewrite Rplus_opp_r. unfold Rdiv. rewrite Rmult_0_r, Rmult_0_l. reflexivity.
Qed.
Lemma max_element_ge h t : h <= max_element h t.
Proof.
  unfold max_element. revert h; induction t as [|y t IH]; intros h; cbn; [ lra | ].
  destruct (Rltb h y) eqn:E; [ apply Rltb_true in E; specialize (IH y); lra | apply IH ].
Qed.
Lemma element_term_nonneg pp_l pp_u qp_l qp_u p_l p_u q_l q_u s c x wx w G :
  0 <= pp_l -> 0 < s -> 0 < c -> -1 < x < 1 -> 0 < wx -> 0 < w -> 0 < G ->
  0 <= element_term pp_l pp_u qp_l qp_u p_l p_u q_l q_u x wx s c w G.
Proof.
  intros H0 Hs Hc Hx Hwx Hw HG. unfold element_term.
  pose proof (pi1_pos s c x Hc Hx) as H1. pose proof (pi2_pos s c x Hc Hx) as H2.
  set (lo := max_element _ _). set (hi := min_element _ _).
  assert (0 <= lo). { unfold lo. eapply Rle_trans; [ | apply max_element_ge ]. apply Rmult_le_pos; [ exact H0 | left; apply Rinv_0_lt_compat, Hs ]. }
  destruct (Rltb hi lo) eqn:E; [ lra | ]. apply Rltb_false in E.
  unfold Rdiv. apply Rmult_le_pos; [ | left; apply Rinv_0_lt_compat; repeat apply Rmult_lt_0_compat; lra ].
  apply Rmult_le_pos; [ repeat apply Rmult_le_pos; lra | nra ].
Qed.
Lemma element_term_pos pp_l pp_u qp_l qp_u p_l p_u q_l q_u phi x wx w G :
  0 <= pp_l -> 0 < sin phi -> 0 < cos phi -> -1 < x < 1 -> 0 < wx -> 0 < w -> 0 < G ->
  direction_hit pp_l pp_u qp_l qp_u p_l p_u q_l q_u phi x = true ->
  0 < element_term pp_l pp_u qp_l qp_u p_l p_u q_l q_u x wx (sin phi) (cos phi) w G.
Proof.
  intros H0 Hs Hc Hx Hwx Hw HG Hh. apply direction_hit_iff in Hh. unfold element_term.
  pose proof (pi1_pos (sin phi) _ x Hc Hx) as H1. pose proof (pi2_pos (sin phi) _ x Hc Hx) as H2.
  set (lo := max_element _ _) in *. set (hi := min_element _ _) in *.
  assert (0 <= lo). { unfold lo. eapply Rle_trans; [ | apply max_element_ge ]. apply Rmult_le_pos; [ exact H0 | left; apply Rinv_0_lt_compat, Hs ]. }
  destruct (Rltb hi lo) eqn:E; [ apply Rltb_true in E; lra | ].
  unfold Rdiv. apply Rmult_lt_0_compat; [ | apply Rinv_0_lt_compat; repeat apply Rmult_lt_0_compat; lra ].
  apply Rmult_lt_0_compat; [ repeat apply Rmult_lt_0_compat; lra | nra ].
Qed.

(* ---------- the angular mesh ---------- *)
Lemma angle_range a0 a1 b0 b1 : 0 <= a0 -> a0 < a1 -> 0 <= b0 -> b0 < b1 ->
  0 <= atan_ratio a0 b1 /\ atan_ratio a0 b1 < atan_ratio a1 b0 /\ atan_ratio a1 b0 <= PI / 2.
Proof.
  intros Ha0 Ha Hb0 Hb. unfold atan_ratio. destruct (Req_EM_T b1 0); [ lra | ].
  assert (H0 : 0 <= a0 / b1) by (apply Rmult_le_pos; [ exact Ha0 | left; apply Rinv_0_lt_compat; lra ]).
  split. { destruct H0 as [H0 | <-]; [ left; rewrite <- atan_0; apply atan_increasing, H0 | rewrite atan_0; lra ]. }
  destruct (Req_EM_T b0 0) as [->|Hn].
  - split; [ apply atan_bound | lra ].
  - split; [ | left; apply atan_bound ]. apply atan_increasing.
    apply div_lt; [ lra | ]. unfold Rdiv. apply (Rmult_lt_reg_r b0); [ lra | ].
    replace (a1 * / b0 * b1 * b0) with (a1 * b1) by (field; exact Hn). nra.
Qed.
Lemma gp_node_range lo hi t : lo < hi -> -1 < t < 1 -> lo < gp_node lo hi t < hi.
Proof. intros H Ht. unfold gp_node. split; nra. Qed.
Lemma phi_sin_cos phi : 0 < phi < PI / 2 -> 0 < sin phi /\ 0 < cos phi.
Proof.
  intros H. split; [ apply sin_gt_0; lra | apply cos_gt_0; lra ].
Qed.

(* ---------- array runs ---------- *)
Open Scope nat_scope.
Lemma calc_gauss_points_ok roots dleg off lo hi x w : off + length roots <= length x -> off + length roots <= length w ->
  exists x' w', calc_gauss_points roots dleg off lo hi (x, w) = Ok (x', w') /\
    length x' = length x /\ length w' = length w /\
    (forall j, j < length roots -> nth_error x' (off + j) = Some (gp_node lo hi (nth j roots 0%R))
                                 /\ nth_error w' (off + j) = Some (gp_weight dleg lo hi (nth j roots 0%R))) /\
    (forall i, (i < off \/ off + length roots <= i) -> nth_error x' i = nth_error x i /\ nth_error w' i = nth_error w i).
Proof.
  intros Hx Hw. unfold calc_gauss_points.
  destruct (ofold_inv (fun d (xw : list R * list R) => length (fst xw) = length x /\ length (snd xw) = length w /\
    (forall j, j < length d -> nth_error (fst xw) (off + j) = Some (gp_node lo hi (nth j roots 0%R))
                                 /\ nth_error (snd xw) (off + j) = Some (gp_weight dleg lo hi (nth j roots 0%R))) /\
    (forall i, (i < off \/ off + length d <= i) -> nth_error (fst xw) i = nth_error x i /\ nth_error (snd xw) i = nth_error w i))
    (fun '(x, w) j =>
      do t <- aread roots j;
      do w <- awrite w (off + j) (gp_weight dleg lo hi t);
      do x <- awrite x (off + j) (gp_node lo hi t);
      Ok (x, w)) (seq 0 (Nphi roots)) (x, w)) as ([x' w'] & E & L1 & L2 & V & Fr).
  - cbn [fst snd length]. repeat split; try reflexivity; lia.
  - intros d j r [x1 w1] Hl (L1 & L2 & V & Fr). cbn [fst snd] in *. apply seq_split in Hl. destruct Hl as [-> Hj]. unfold Nphi in Hj.
    rewrite (aread_nth roots (length d) 0%R) by lia. cbn [obind].
    destruct (awrite_ok w1 (off + length d) (gp_weight dleg lo hi (nth (length d) roots 0%R))) as (w2 & E2 & L2' & V2 & F2); [ lia | ].
    destruct (awrite_ok x1 (off + length d) (gp_node lo hi (nth (length d) roots 0%R))) as (x2 & E3 & L3' & V3 & F3); [ lia | ].
    rewrite E2. cbn [obind]. rewrite E3. cbn [obind]. eexists; split; [ reflexivity | ]. cbn [fst snd]. rewrite app_length. cbn [length].
    split; [ lia | ]. split; [ lia | ]. split.
    + intros j Hj'. destruct (Nat.eq_dec j (length d)) as [->|Hne]; [ split; assumption | ].
      rewrite F2, F3 by lia. apply V. lia.
    + intros i Hi. rewrite F2, F3 by lia. apply Fr. lia.
  - cbn [fst snd] in *. rewrite seq_length in *. unfold Nphi in *. exists x', w'. repeat split; try assumption; try (apply V; assumption); apply Fr; assumption.
Qed.

Lemma nth_error_skipn_add {A} (a : list A) off j : nth_error (skipn off a) j = nth_error a (off + j).
Proof. revert a; induction off as [|off IH]; intros [|x a]; cbn; try reflexivity; [ destruct j; reflexivity | apply IH ]. Qed.
Lemma nth_error_firstn_lt {A} (a : list A) n j : j < n -> nth_error (firstn n a) j = nth_error a j.
Proof.
  revert a j; induction n as [|n IH]; intros [|x a] [|j] H; try lia; cbn; try reflexivity. apply IH. lia.
Qed.

Lemma slice_map (a : list R) off n (f : nat -> R) :
  (forall j, j < n -> nth_error a (off + j) = Some (f j)) -> slice a off n = map f (seq 0 n).
Proof.
  intros H. unfold slice. apply list_ext.
  - rewrite map_length, seq_length, firstn_length, skipn_length. destruct n as [|n]; [ reflexivity | ].
    assert (off + n < length a) by (apply nth_error_Some; rewrite H by lia; discriminate). lia.
  - intros j Hj. rewrite firstn_length in Hj. assert (j < n) by lia.
    assert (G : nth_error (firstn n (skipn off a)) j = nth_error a (off + j)).
    { rewrite nth_error_firstn_lt, nth_error_skipn_add by assumption. reflexivity. }
    rewrite G, H by assumption. rewrite nth_error_map, nth_error_nth' with (d := 0) by (rewrite seq_length; lia).
    rewrite seq_nth by lia. reflexivity.
Qed.

Section Run.
Variables (roots : list R) (dleg : R -> R) (Np Nq : nat) (pb qb xs : list R).
Let n := length roots.
Definition loA (qp pp : nat) : R := atan_ratio (lower pb pp) (upper qb qp).
Definition hiA (qp pp : nat) : R := atan_ratio (upper pb pp) (lower qb qp).
Definition phiF (qp pp j : nat) : R := gp_node (loA qp pp) (hiA qp pp) (nth j roots 0%R).
Definition wphiF (qp pp j : nat) : R := gp_weight dleg (loA qp pp) (hiA qp pp) (nth j roots 0%R).
Definition phis (qp pp : nat) : list R := map (phiF qp pp) (seq 0 n).
Definition tabF (qp pp q p : nat) : bool :=
  cell_overlap (loA qp pp) (hiA qp pp) (lower pb pp) (upper pb pp) (lower qb qp) (upper qb qp)
    (lower pb p) (upper pb p) (lower qb q) (upper qb q) (phis qp pp) xs.

Lemma pq_idx_alt qp pp q p : pq_idx Np Nq qp pp q p = (qp * Np + pp) * (Nq * Np) + (q * Np + p).
Proof. unfold pq_idx. nia. Qed.

Lemma tab_inner qp pp phi tab :
  length pb = Np + 1 -> length qb = Nq + 1 -> qp < Nq -> pp < Np -> length tab = Nq * Nq * Np * Np ->
  slice phi ((qp * Np + pp) * n) n = phis qp pp ->
  exists tab', ofold (fun tab q =>
        do q_l <- aread qb q; do q_u <- aread qb (q + 1)%nat;
        ofold (fun tab p =>
          do p_l <- aread pb p; do p_u <- aread pb (p + 1)%nat;
          awrite tab (pq_idx Np Nq qp pp q p)
            (cell_overlap (loA qp pp) (hiA qp pp) (lower pb pp) (upper pb pp) (lower qb qp) (upper qb qp) p_l p_u q_l q_u
               (slice phi ((qp * Np + pp) * n) n) xs)) (seq 0 Np) tab) (seq 0 Nq) tab = Ok tab' /\
    length tab' = length tab /\
    (forall q p, q < Nq -> p < Np -> nth_error tab' (pq_idx Np Nq qp pp q p) = Some (tabF qp pp q p)) /\
    (forall i, (i < (qp * Np + pp) * (Nq * Np) \/ (qp * Np + pp + 1) * (Nq * Np) <= i) -> nth_error tab' i = nth_error tab i).
Proof.
  intros Lp Lq Hqp Hpp Lt Hs. rewrite Hs.
  erewrite (ofold_flat _ (fun t (x : nat * nat) => awrite t (pq_idx Np Nq qp pp (fst x) (snd x)) (tabF qp pp (fst x) (snd x)))
             (fun q => map (pair q) (seq 0 Np))).
  2:{ intros q s Hq. apply in_seq in Hq. rewrite (aread_nth qb q 0%R), (aread_nth qb (q + 1) 0%R) by lia. cbn [obind].
      rewrite ofold_map. apply ofold_ext. intros p t Hp. apply in_seq in Hp.
      rewrite (aread_nth pb p 0%R), (aread_nth pb (p + 1) 0%R) by lia. reflexivity. }
  fold (nest Nq Np).
  assert (A : qp * Np + pp < Nq * Np) by (apply rm_lt; assumption).
  destruct (scatter (fun x : nat * nat => pq_idx Np Nq qp pp (fst x) (snd x)) (fun x => tabF qp pp (fst x) (snd x)) (nest Nq Np) tab)
    as (tab' & E & L & W & Fr).
  { intros [q p] Hx. apply in_nest in Hx. cbn [fst snd]. rewrite pq_idx_alt, Lt.
    replace (Nq * Nq * Np * Np) with ((Nq * Np) * (Nq * Np)) by nia. apply rm_lt; [ exact A | apply rm_lt; tauto ]. }
  { intros [q p] [q' p'] Hx Hy. apply in_nest in Hx, Hy. cbn [fst snd]. rewrite !pq_idx_alt. intros Heq.
    assert (q * Np + p = q' * Np + p') by lia.
    destruct (rm_inj Np q p q' p') as [-> ->]; tauto || reflexivity. }
  exists tab'. split; [ exact E | ]. split; [ exact L | ]. split.
  - intros q p Hq Hp. apply (W (q, p)). apply in_nest. tauto.
  - intros i Hi. apply Fr. intros [q p] Hx. apply in_nest in Hx. cbn [fst snd]. rewrite pq_idx_alt.
    assert (q * Np + p < Nq * Np) by (apply rm_lt; tauto). intros <-. nia.
Qed.

Definition cell_list := nest Nq Np.
Lemma nest_split d x r : nest Nq Np = d ++ x :: r ->
  fst x < Nq /\ snd x < Np /\ (forall y, In y d -> y <> x).
Proof.
  intros H. assert (In x (nest Nq Np)) by (rewrite H; apply in_or_app; right; left; reflexivity).
  destruct x as [a b]. apply in_nest in H0. cbn. split; [ tauto | ]. split; [ tauto | ]. intros y Hy ->.
  pose proof (NoDup_nest Nq Np) as ND. rewrite H in ND. apply NoDup_remove_2 in ND. apply ND, in_or_app. left; exact Hy.
Qed.

Lemma overlap_run phi wphi tab :
  length pb = Np + 1 -> length qb = Nq + 1 ->
  length phi = Nq * Np * n -> length wphi = Nq * Np * n -> length tab = Nq * Nq * Np * Np ->
  exists phi' wphi' tab', calculate_WP_overlap roots dleg Np Nq pb qb xs (phi, wphi, tab) = Ok (phi', wphi', tab') /\
    length phi' = Nq * Np * n /\ length wphi' = Nq * Np * n /\ length tab' = Nq * Nq * Np * Np /\
    (forall qp pp j, qp < Nq -> pp < Np -> j < n ->
       nth_error phi' ((qp * Np + pp) * n + j) = Some (phiF qp pp j) /\ nth_error wphi' ((qp * Np + pp) * n + j) = Some (wphiF qp pp j)) /\
    (forall qp pp q p, qp < Nq -> pp < Np -> q < Nq -> p < Np -> nth_error tab' (pq_idx Np Nq qp pp q p) = Some (tabF qp pp q p)).
Proof.
  intros Lp Lq L1 L2 L3. unfold calculate_WP_overlap.
  set (body := fun (qp : nat) (st : list R * list R * list bool) (pp : nat) =>
      let '(phi, wphi, tab) := st in
      do pp_l <- aread pb pp; do pp_u <- aread pb (pp + 1)%nat;
      let phi_lower := atan_ratio pp_l (upper qb qp) in
      let phi_upper := atan_ratio pp_u (lower qb qp) in
      do '(phi, wphi) <- calc_gauss_points roots dleg ((qp * Np + pp) * Nphi roots) phi_lower phi_upper (phi, wphi);
      do tab <- ofold (fun tab q =>
        do q_l <- aread qb q; do q_u <- aread qb (q + 1)%nat;
        ofold (fun tab p =>
          do p_l <- aread pb p; do p_u <- aread pb (p + 1)%nat;
          awrite tab (pq_idx Np Nq qp pp q p)
            (cell_overlap phi_lower phi_upper pp_l pp_u (lower qb qp) (upper qb qp) p_l p_u q_l q_u
               (slice phi ((qp * Np + pp) * Nphi roots) (Nphi roots)) xs)) (seq 0 Np) tab) (seq 0 Nq) tab;
      Ok (phi, wphi, tab)).
  erewrite (ofold_flat _ (fun st (x : nat * nat) => body (fst x) st (snd x)) (fun qp => map (pair qp) (seq 0 Np))).
  2:{ intros qp st Hq. apply in_seq in Hq. rewrite (aread_nth qb qp 0%R), (aread_nth qb (qp + 1) 0%R) by lia. cbn [obind].
      rewrite ofold_map. apply ofold_ext. intros pp [[a b] c] _. reflexivity. }
  fold (nest Nq Np).
  destruct (ofold_inv (fun d (st : list R * list R * list bool) =>
     length (fst (fst st)) = Nq * Np * n /\ length (snd (fst st)) = Nq * Np * n /\ length (snd st) = Nq * Nq * Np * Np /\
     (forall qp pp j, In (qp, pp) d -> j < n ->
       nth_error (fst (fst st)) ((qp * Np + pp) * n + j) = Some (phiF qp pp j) /\ nth_error (snd (fst st)) ((qp * Np + pp) * n + j) = Some (wphiF qp pp j)) /\
     (forall qp pp q p, In (qp, pp) d -> q < Nq -> p < Np -> nth_error (snd st) (pq_idx Np Nq qp pp q p) = Some (tabF qp pp q p)))
     (fun st (x : nat * nat) => body (fst x) st (snd x)) (nest Nq Np) (phi, wphi, tab)) as ([[phi' wphi'] tab'] & E & K1 & K2 & K3 & V1 & V2).
  - cbn [fst snd]. repeat split; try assumption; intros; contradiction.
  - intros d [qp pp] r [[phi1 wphi1] tab1] Hl (K1 & K2 & K3 & V1 & V2). pose proof (nest_split _ _ _ Hl) as (Hqp & Hpp & Hd).
    assert (Hd' : forall a b, In (a, b) d -> a < Nq /\ b < Np).
    { intros a b Hab. apply in_nest. rewrite Hl. apply in_or_app. left; exact Hab. }
    cbn [fst snd] in *. assert (A : qp * Np + pp < Nq * Np) by (apply rm_lt; assumption).
    assert (Hsp : (qp * Np + pp) * n + n <= Nq * Np * n) by nia.
    assert (Hother : forall a b, In (a, b) d -> a * Np + b <> qp * Np + pp).
    { intros a b Hab Heq. destruct (Hd' a b Hab). destruct (rm_inj Np a b qp pp) as [-> ->]; try assumption. apply (Hd _ Hab eq_refl). }
    unfold body. cbn [fst snd]. rewrite (aread_nth pb pp 0%R), (aread_nth pb (pp + 1) 0%R) by lia. cbn [obind].
    change (nth pp pb 0%R) with (lower pb pp). change (nth (pp + 1) pb 0%R) with (upper pb pp).
    change (Nphi roots) with n. change (atan_ratio (lower pb pp) (upper qb qp)) with (loA qp pp).
    change (atan_ratio (upper pb pp) (lower qb qp)) with (hiA qp pp).
    destruct (calc_gauss_points_ok roots dleg ((qp * Np + pp) * n) (loA qp pp) (hiA qp pp) phi1 wphi1) as (phi2 & wphi2 & E2 & M1 & M2 & W & Fr);
      [ fold n; lia | fold n; lia | ].
    rewrite E2. cbn [obind]. fold n in W, Fr.
    destruct (tab_inner qp pp phi2 tab1) as (tab2 & E3 & M3 & W3 & F3); try assumption.
    { apply slice_map. intros j Hj. destruct (W j Hj) as [-> _]. reflexivity. }
    rewrite E3. cbn [obind]. eexists; split; [ reflexivity | ]. cbn [fst snd].
    split; [ lia | ]. split; [ lia | ]. split; [ lia | ]. split.
    + intros a b j Hab Hj. apply in_app_or in Hab. destruct Hab as [Hab|[[= <- <-]|[]]].
      * destruct (Fr ((a * Np + b) * n + j)) as [-> ->]; [ specialize (Hother a b Hab); clear - Hother Hj; nia | apply V1; assumption ].
      * apply W, Hj.
    + intros a b q p Hab Hq Hp. apply in_app_or in Hab. destruct Hab as [Hab|[[= <- <-]|[]]].
      * rewrite F3; [ apply V2; assumption | ]. rewrite pq_idx_alt. assert (q * Np + p < Nq * Np) by (apply rm_lt; assumption).
        specialize (Hother a b Hab). nia.
      * apply W3; assumption.
  - cbn [fst snd] in *. exists phi', wphi', tab'. split; [ exact E | ]. split; [ exact K1 | ]. split; [ exact K2 | ]. split; [ exact K3 | ]. split.
    + intros qp pp j Hqp Hpp Hj. apply V1; [ apply in_nest; tauto | exact Hj ].
    + intros qp pp q p Hqp Hpp Hq Hp. apply V2; [ apply in_nest; tauto | exact Hq | exact Hp ].
Qed.
End Run.
