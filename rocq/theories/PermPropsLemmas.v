From Coq Require Import Reals Lra Psatz.
From Verif Require Import Common ArrayLib SwpModel SwpProofs GridModel GridSpec GridProofs PermModel PermSpec PermProofs.
Open Scope R_scope.

Lemma norm2_sqrt a b : sqrt (a * a + b * b) * sqrt (a * a + b * b) = a * a + b * b.
Proof. apply sqrt_sqrt. nra. Qed.

Lemma kinematics p q x : 0 <= p -> 0 <= q -> -1 <= x <= 1 ->
  let P := (0, p) in let Q := (q * sqrt (1 - x * x), q * x) in
  let v1 := (- (1/2) * fst P - 3/4 * fst Q, - (1/2) * snd P - 3/4 * snd Q) in
  let v2 := (fst P - 1/2 * fst Q, snd P - 1/2 * snd Q) in
  let norm v := sqrt (fst v * fst v + snd v * snd v) in
  norm P = p /\ norm Q = q /\
  0 <= pi1_rad p q x /\ 0 <= pi2_rad p q x /\ pi1_tilde p q x = norm v1 /\ pi2_tilde p q x = norm v2 /\
  jacobi_energy (pi1_tilde p q x) (pi2_tilde p q x) = jacobi_energy p q /\
  (pi1_tilde p q x <> 0 -> -1 <= costheta1 p q x <= 1 /\ costheta1 p q x = snd v1 / norm v1) /\
  (pi2_tilde p q x <> 0 -> -1 <= costheta2 p q x <= 1 /\ costheta2 p q x = snd v2 / norm v2) /\
  (0 < q -> -1 < x < 1 -> 0 < pi1_tilde p q x /\ 0 < pi2_tilde p q x).
Proof.
  intros Hp Hq Hx P Q v1 v2 norm. pose proof (one_minus_sq x Hx) as H1x.
  assert (S : sqrt (1 - x * x) * sqrt (1 - x * x) = 1 - x * x) by (apply sqrt_sqrt, H1x).
  assert (E1 : pi1_tilde p q x = norm v1).
  { unfold norm, pi1_tilde. f_equal. unfold v1, P, Q. cbn [fst snd]. rewrite pi1_rad_sq by exact Hx.
    clear - S. revert S. generalize (sqrt (1 - x * x)). intros r S. rewrite <- S. field. }
  assert (E2 : pi2_tilde p q x = norm v2).
  { unfold norm, pi2_tilde. f_equal. unfold v2, P, Q. cbn [fst snd]. rewrite pi2_rad_sq.
    clear - S. revert S. generalize (sqrt (1 - x * x)). intros r S. rewrite <- S. field. }
  repeat apply conj.
  - unfold norm, P. cbn [fst snd]. replace (0 * 0 + p * p) with (p * p) by ring. apply sqrt_square, Hp.
  - unfold norm, Q. cbn [fst snd].
    replace (q * sqrt (1 - x * x) * (q * sqrt (1 - x * x)) + q * x * (q * x))
      with (q * q * (sqrt (1 - x * x) * sqrt (1 - x * x)) + q * q * (x * x)) by ring.
    rewrite S. replace (q * q * (1 - x * x) + q * q * (x * x)) with (q * q) by ring. apply sqrt_square, Hq.
  - apply pi1_rad_nonneg, Hx.
  - apply pi2_rad_nonneg, Hx.
  - exact E1.
  - exact E2.
  - apply energy_conserved, Hx.
  - intros Hn. assert (Hpos : 0 < pi1_tilde p q x) by (pose proof (sqrt_pos (pi1_rad p q x)); unfold pi1_tilde in *; lra).
    pose proof (cos1_range p q x Hx Hpos) as Hr. unfold costheta1. rewrite clamp_id by exact Hr. split; [ exact Hr | ].
    unfold costheta1_raw. rewrite <- E1. f_equal. unfold v1, P, Q. cbn [fst snd]. lra.
  - intros Hn. assert (Hpos : 0 < pi2_tilde p q x) by (pose proof (sqrt_pos (pi2_rad p q x)); unfold pi2_tilde in *; lra).
    pose proof (cos2_range p q x Hx Hpos) as Hr. unfold costheta2. rewrite clamp_id by exact Hr. split; [ exact Hr | ].
    unfold costheta2_raw. rewrite <- E2. f_equal. unfold v2, P, Q. cbn [fst snd]. lra.
  - intros Hq0 Hx0. split; [ apply pi1_pos; assumption | apply pi2_pos; assumption ].
Qed.

(* ---------- the element as a sum ---------- *)
Lemma sum_S f n : sum f (S n) = sum f n + f n.
Proof.
  unfold sum. rewrite seq_S, map_app, fold_right_app. cbn [map fold_right plus]. generalize (f n). intros c.
  induction (map f (seq 0 n)) as [|y l IH]; cbn [fold_right]; [ lra | rewrite IH; lra ].
Qed.
Lemma ofold_sum (f : nat -> R) (body : R -> nat -> outcome R) n acc :
  (forall i a, (i < n)%nat -> body a i = Ok (a + f i)) -> ofold body (seq 0 n) acc = Ok (acc + sum f n).
Proof.
  induction n as [|n IH]; intros H; [ cbn; f_equal; unfold sum; cbn; lra | ].
  rewrite seq_S, ofold_app, IH by (intros; apply H; lia). cbn [ofold obind plus]. rewrite H by lia. cbn [obind]. f_equal.
  rewrite sum_S. lra.
Qed.
Lemma sum_zero f n : (forall i, (i < n)%nat -> f i = 0) -> sum f n = 0.
Proof. induction n as [|n IH]; intros H; [ reflexivity | ]. rewrite sum_S, IH, H by (intros; try apply H; lia). lra. Qed.
Lemma sum_nonneg f n : (forall i, (i < n)%nat -> 0 <= f i) -> 0 <= sum f n.
Proof.
  induction n as [|n IH]; intros H; [ unfold sum; cbn; lra | ]. rewrite sum_S.
  assert (0 <= sum f n) by (apply IH; intros; apply H; lia). specialize (H n ltac:(lia)). lra.
Qed.
Lemma sum_pos f n i : (forall i, (i < n)%nat -> 0 <= f i) -> (i < n)%nat -> 0 < f i -> 0 < sum f n.
Proof.
  induction n as [|n IH]; intros H Hi Hp; [ lia | ]. rewrite sum_S. destruct (Nat.eq_dec i n) as [->|Hn].
  - assert (0 <= sum f n) by (apply sum_nonneg; intros; apply H; lia). lra.
  - assert (0 < sum f n) by (apply IH; [ intros; apply H; lia | lia | exact Hp ]). specialize (H n ltac:(lia)). lra.
Qed.

Lemma map_nth_error_seq {A} (a : list A) d : map (fun i => nth i a d) (seq 0 (length a)) = a.
Proof.
  apply list_ext; [ rewrite map_length, seq_length; reflexivity | ]. intros i Hi. rewrite map_length, seq_length in Hi.
  rewrite nth_error_map, nth_error_nth' with (l := seq 0 (length a)) (d := 0%nat) by (rewrite seq_length; exact Hi).
  rewrite seq_nth by exact Hi. cbn. symmetry. apply nth_error_nth'. exact Hi.
Qed.

Section Elem.
Variables (roots : list R) (dleg : R -> R) (Np Nq : nat) (pb qb xs : list R).
Hypothesis Lp : length pb = (Np + 1)%nat.
Hypothesis Lq : length qb = (Nq + 1)%nat.
Let n := length roots.

Definition term_at (G wxs ws : list R) (qp pp q p : nat) (xi j : nat) : R :=
  element_term (lower pb pp) (upper pb pp) (lower qb qp) (upper qb qp) (lower pb p) (upper pb p) (lower qb q) (upper qb q)
    (nth xi xs 0) (nth xi wxs 0) (sin (phiF roots pb qb qp pp j)) (cos (phiF roots pb qb qp pp j)) (nth j ws 0)
    (nth (j * length xs + xi) G 0).

Lemma element_run G wxs ws qp pp q p :
  (qp < Nq)%nat -> (pp < Np)%nat -> (q < Nq)%nat -> (p < Np)%nat ->
  length G = (n * length xs)%nat -> length wxs = length xs -> length ws = n ->
  P123_element roots G p q pp qp pb qb xs wxs (map sin (phis roots pb qb qp pp)) (map cos (phis roots pb qb qp pp)) ws
  = Ok (sum (fun xi => sum (fun j => term_at G wxs ws qp pp q p xi j) n) (length xs)
        / (normalization (lower qb q) (upper qb q) * normalization (lower pb p) (upper pb p)
           * normalization (lower qb qp) (upper qb qp) * normalization (lower pb pp) (upper pb pp))).
Proof.
  intros Hqp Hpp Hq Hp LG Lw Ls. unfold P123_element.
  rewrite (aread_nth pb p 0), (aread_nth pb (p + 1) 0), (aread_nth qb q 0), (aread_nth qb (q + 1) 0),
    (aread_nth pb pp 0), (aread_nth pb (pp + 1) 0), (aread_nth qb qp 0), (aread_nth qb (qp + 1) 0) by lia. cbn [obind].
  rewrite (ofold_sum (fun xi => sum (fun j => term_at G wxs ws qp pp q p xi j) n)).
  - cbn [obind]. f_equal. rewrite Rplus_0_l. reflexivity.
  - intros xi a Hxi. rewrite (aread_nth xs xi 0), (aread_nth wxs xi 0) by lia. cbn [obind].
    apply ofold_sum. intros j b Hj. change (Nphi roots) with n in Hj.
    assert (Lph : length (phis roots pb qb qp pp) = n) by (unfold phis; rewrite map_length, seq_length; reflexivity).
    rewrite (aread_nth _ j (sin 0)), (aread_nth (map cos _) j (cos 0)), (aread_nth ws j 0), (aread_nth G _ 0);
      try (rewrite ?map_length, ?Lph; lia).
    2:{ rewrite LG. pose proof (rm_lt n (length xs) j xi Hj Hxi). lia. }
    cbn [obind]. rewrite !map_nth. unfold phis.
    rewrite nth_map_seq by exact Hj. reflexivity.
Qed.
End Elem.

Lemma sqrt_diff_pos a b : a < b -> 0 < normalization a b.
Proof. intros. apply sqrt_lt_R0. lra. Qed.

Section C20.
Variables (roots : list R) (dleg : R -> R) (Np Nq : nat) (pb qb xs : list R).
Hypothesis Pp : partition_from_zero Np pb.
Hypothesis Pq : partition_from_zero Nq qb.
Hypothesis Hroots : mesh_in (-1) 1 roots.
Hypothesis Hxs : mesh_in (-1) 1 xs.
Let n := length roots.

Lemma bin_order N b i : partition_from_zero N b -> (i < N)%nat -> 0 <= lower b i < upper b i.
Proof.
  intros (L & H0 & H) Hi. unfold lower, upper. split; [ | apply H; lia ].
  destruct i as [|i]; [ lra | ]. specialize (H 0%nat (S i) ltac:(lia)). lra.
Qed.
Lemma phiF_range qp pp j : (qp < Nq)%nat -> (pp < Np)%nat -> (j < n)%nat ->
  atan_ratio (lower pb pp) (upper qb qp) < phiF roots pb qb qp pp j < atan_ratio (upper pb pp) (lower qb qp) /\
  0 < sin (phiF roots pb qb qp pp j) /\ 0 < cos (phiF roots pb qb qp pp j).
Proof.
  intros Hqp Hpp Hj. pose proof (bin_order _ _ _ Pp Hpp) as [A1 A2]. pose proof (bin_order _ _ _ Pq Hqp) as [B1 B2].
  destruct (angle_range _ _ _ _ A1 A2 B1 B2) as (C1 & C2 & C3).
  assert (D : loA pb qb qp pp < phiF roots pb qb qp pp j < hiA pb qb qp pp).
  { apply gp_node_range; [ exact C2 | ]. apply Hroots. apply nth_In. exact Hj. }
  unfold loA, hiA in D. split; [ exact D | ]. apply phi_sin_cos. lra.
Qed.
Lemma tabF_true qp pp q p : (qp < Nq)%nat -> (pp < Np)%nat ->
  tabF roots pb qb xs qp pp q p = true <->
  exists j xi, (j < n)%nat /\ (xi < length xs)%nat /\
    direction_hit (lower pb pp) (upper pb pp) (lower qb qp) (upper qb qp) (lower pb p) (upper pb p) (lower qb q) (upper qb q)
      (phiF roots pb qb qp pp j) (nth xi xs 0) = true.
Proof.
  intros Hqp Hpp. pose proof (bin_order _ _ _ Pp Hpp) as [A1 A2]. pose proof (bin_order _ _ _ Pq Hqp) as [B1 B2].
  destruct (angle_range _ _ _ _ A1 A2 B1 B2) as (C1 & C2 & C3).
  unfold tabF, cell_overlap. fold (loA pb qb qp pp) in C1, C2. fold (hiA pb qb qp pp) in C2, C3.
  rewrite (proj2 (Rltb_true _ _) C2). rewrite existsb_exists. split.
  - intros (phi & Hphi & H). apply existsb_exists in H. destruct H as (x & Hx & H).
    unfold phis in Hphi. apply in_map_iff in Hphi. destruct Hphi as (j & <- & Hj). apply in_seq in Hj.
    apply (In_nth xs x 0) in Hx. destruct Hx as (xi & Hxi & <-). exists j, xi. repeat split; try assumption; unfold n; lia.
  - intros (j & xi & Hj & Hxi & H). exists (phiF roots pb qb qp pp j). split.
    + apply in_map_iff. exists j. split; [ reflexivity | apply in_seq; unfold n in Hj; lia ].
    + apply existsb_exists. exists (nth xi xs 0). split; [ apply nth_In, Hxi | exact H ].
Qed.

Lemma overlap_table phi0 wphi0 tab0 :
  length phi0 = (Nq * Np * n)%nat -> length wphi0 = (Nq * Np * n)%nat -> length tab0 = (Nq * Nq * Np * Np)%nat ->
  exists phi wphi tab, calculate_WP_overlap roots dleg Np Nq pb qb xs (phi0, wphi0, tab0) = Ok (phi, wphi, tab) /\
   length tab = (Nq * Nq * Np * Np)%nat /\
   (forall qp pp j, (qp < Nq)%nat -> (pp < Np)%nat -> (j < n)%nat ->
      atan_ratio (lower pb pp) (upper qb qp) < nth ((qp * Np + pp) * n + j) phi 0 < atan_ratio (upper pb pp) (lower qb qp)) /\
   forall qp pp q p, (qp < Nq)%nat -> (pp < Np)%nat -> (q < Nq)%nat -> (p < Np)%nat ->
     let idx := pq_idx Np Nq qp pp q p in
     let angles := slice phi ((qp * Np + pp) * n) n in
     (idx < length tab)%nat /\
     (nth idx tab false = false -> forall G wxs ws,
        length G = (n * length xs)%nat -> length wxs = length xs -> length ws = n ->
        P123_element roots G p q pp qp pb qb xs wxs (map sin angles) (map cos angles) ws = Ok 0) /\
     (nth idx tab false = true <->
        exists phi x p' q', In phi angles /\ In x xs /\ p' * cos phi = q' * sin phi /\
          inside pb pp p' /\ inside qb qp q' /\ inside pb p (pi1_tilde p' q' x) /\ inside qb q (pi2_tilde p' q' x)) /\
     (nth idx tab false = true -> forall G wxs ws,
        length G = (n * length xs)%nat -> length wxs = length xs -> length ws = n ->
        Forall (fun v => 0 < v) G -> Forall (fun v => 0 < v) wxs -> Forall (fun v => 0 < v) ws ->
        exists v, P123_element roots G p q pp qp pb qb xs wxs (map sin angles) (map cos angles) ws = Ok v /\ 0 < v).
Proof.
  intros L1 L2 L3. pose proof (proj1 Pp) as Lp. pose proof (proj1 Pq) as Lq.
  destruct (overlap_run roots dleg Np Nq pb qb xs phi0 wphi0 tab0) as (phi & wphi & tab & E & K1 & K2 & K3 & V & T); try assumption.
  exists phi, wphi, tab. split; [ exact E | ]. split; [ exact K3 | ]. split.
  { intros qp pp j Hqp Hpp Hj. destruct (V qp pp j Hqp Hpp Hj) as [V1 _]. fold n in V1. rewrite (nth_error_nth _ _ _ V1).
    apply phiF_range; assumption. }
  intros qp pp q p Hqp Hpp Hq Hp idx angles. specialize (T qp pp q p Hqp Hpp Hq Hp). fold idx in T.
  assert (EA : angles = phis roots pb qb qp pp).
  { unfold angles, phis. apply slice_map. intros j Hj. apply V; assumption. }
  rewrite (nth_error_nth _ _ _ T).
  split; [ apply nth_error_Some; congruence | ].
  pose proof (bin_order _ _ _ Pp Hpp) as [A1 A2]. pose proof (bin_order _ _ _ Pq Hqp) as [B1 B2].
  assert (NP : 0 < normalization (lower qb q) (upper qb q) * normalization (lower pb p) (upper pb p)
           * normalization (lower qb qp) (upper qb qp) * normalization (lower pb pp) (upper pb pp)).
  { pose proof (bin_order _ _ _ Pp Hp) as [_ ?]. pose proof (bin_order _ _ _ Pq Hq) as [_ ?].
    repeat apply Rmult_lt_0_compat; apply sqrt_diff_pos; assumption. }
  split; [ | split ].
  - intros Hf G wxs ws LG Lw Ls. rewrite EA. erewrite element_run by eassumption. f_equal.
    rewrite sum_zero; [ unfold Rdiv; apply Rmult_0_l | ]. intros xi Hxi. apply sum_zero. intros j Hj.
    unfold term_at. apply element_term_zero. destruct (direction_hit _ _ _ _ _ _ _ _ _ _) eqn:Eh; [ exfalso | reflexivity ].
    assert (tabF roots pb qb xs qp pp q p = true) by (apply tabF_true; try assumption; exists j, xi; repeat split; assumption).
    congruence.
  - rewrite tabF_true by assumption. split.
    + intros (j & xi & Hj & Hxi & Hh). destruct (phiF_range qp pp j Hqp Hpp Hj) as (_ & Hs & Hc).
      assert (Hx : -1 < nth xi xs 0 < 1) by (apply Hxs, nth_In, Hxi).
      apply direction_hit_k in Hh; try assumption. destruct Hh as (k & H1 & H2 & H3 & H4).
      set (ph := phiF roots pb qb qp pp j) in *.
      assert (Hk : 0 <= k) by (apply Rnot_lt_le; intro; nra).
      exists ph, (nth xi xs 0), (k * sin ph), (k * cos ph).
      split. { rewrite EA. unfold phis. apply in_map_iff. exists j. split; [ reflexivity | apply in_seq; unfold n in Hj; lia ]. }
      split; [ apply nth_In, Hxi | ]. split; [ ring | ]. split; [ exact H1 | ]. split; [ exact H2 | ].
      rewrite pi1_scale, pi2_scale by lra. split; assumption.
    + intros (ph & x & p' & q' & Hph & Hx & Hd & I1 & I2 & I3 & I4). rewrite EA in Hph. unfold phis in Hph. apply in_map_iff in Hph.
      destruct Hph as (j & <- & Hj). apply in_seq in Hj. assert (Hj' : (j < n)%nat) by (unfold n; lia).
      destruct (phiF_range qp pp j Hqp Hpp Hj') as (_ & Hs & Hc). set (ph := phiF roots pb qb qp pp j) in *.
      assert (Hxr : -1 < x < 1) by (apply Hxs, Hx). apply (In_nth xs x 0) in Hx. destruct Hx as (xi & Hxi & Exi).
      exists j, xi. split; [ exact Hj' | ]. split; [ exact Hxi | ]. rewrite Exi.
      apply direction_hit_k; try assumption. exists (p' / sin ph).
      assert (Ep : p' / sin ph * sin ph = p') by (field; lra).
      assert (Eq' : p' / sin ph * cos ph = q'). { apply (Rmult_eq_reg_r (sin ph)); [ | lra ]. replace (p' / sin ph * cos ph * sin ph) with (p' * cos ph) by (field; lra). exact Hd. }
      assert (Hk : 0 <= p' / sin ph). { apply Rmult_le_pos; [ unfold inside in I1; lra | left; apply Rinv_0_lt_compat, Hs ]. }
      fold ph. rewrite <- pi1_scale, <- pi2_scale by lra. rewrite Ep, Eq'. repeat split; try apply I1; try apply I2; try apply I3; apply I4.
  - intros Ht G wxs ws LG Lw Ls PG Pw Ps. rewrite EA. erewrite element_run by eassumption. eexists; split; [ reflexivity | ].
    apply Rdiv_lt_0_compat; [ | exact NP ].
    apply tabF_true in Ht; try assumption. destruct Ht as (j & xi & Hj & Hxi & Hh).
    rewrite Forall_forall in PG, Pw, Ps.
    assert (Nn : forall xi j, (xi < length xs)%nat -> (j < n)%nat -> 0 <= term_at roots pb qb xs G wxs ws qp pp q p xi j).
    { intros xi' j' Hxi' Hj'. destruct (phiF_range qp pp j' Hqp Hpp Hj') as (_ & Hs & Hc). unfold term_at.
      apply element_term_nonneg; try assumption.
      - apply Hxs, nth_In, Hxi'.
      - apply Pw, nth_In. lia.
      - apply Ps, nth_In. lia.
      - apply PG, nth_In. rewrite LG. pose proof (rm_lt n (length xs) j' xi' Hj' Hxi'). lia. }
    apply (sum_pos _ _ xi).
    + intros i Hi. apply sum_nonneg. intros; apply Nn; assumption.
    + exact Hxi.
    + apply (sum_pos _ _ j); [ intros; apply Nn; assumption | exact Hj | ].
      destruct (phiF_range qp pp j Hqp Hpp Hj) as (_ & Hs & Hc). unfold term_at. apply element_term_pos; try assumption.
      * apply Hxs, nth_In, Hxi.
      * apply Pw, nth_In. lia.
      * apply Ps, nth_In. lia.
      * apply PG, nth_In. rewrite LG. pose proof (rm_lt n (length xs) j xi Hj Hxi). lia.
Qed.
End C20.

Lemma table_index_injective Np Nq qp pp q p qp' pp' q' p' :
  (pp < Np)%nat -> (q < Nq)%nat -> (p < Np)%nat -> (pp' < Np)%nat -> (q' < Nq)%nat -> (p' < Np)%nat ->
  pq_idx Np Nq qp pp q p = pq_idx Np Nq qp' pp' q' p' -> (qp, pp, q, p) = (qp', pp', q', p').
Proof.
  intros H H0 H1 H2 H3 H4 H5. unfold pq_idx in H5.
  assert (((qp * Np + pp) * (Nq * Np) + (q * Np + p) = (qp' * Np + pp') * (Nq * Np) + (q' * Np + p'))%nat) by nia. clear H5.
  destruct (rm_inj (Nq * Np) (qp * Np + pp) (q * Np + p) (qp' * Np + pp') (q' * Np + p')) as [E1 E2];
    try (apply rm_lt; assumption); try assumption.
  destruct (rm_inj Np qp pp qp' pp') as [-> ->]; try assumption. destruct (rm_inj Np q p q' p') as [-> ->]; try assumption. reflexivity.
Qed.
