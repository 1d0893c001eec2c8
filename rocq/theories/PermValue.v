(* The value of a permutation element (C66). *)
From Coq Require Import Reals Lra.
From Coquelicot Require Import Coquelicot.
From Verif Require Import Common ArrayLib SwpModel GridModel GridSpec GridProofs GridPropsLemmas PermModel PermSpec PermProofs PermPropsLemmas.
Open Scope R_scope.

Lemma max_element_le h t c : max_element h t <= c <-> h <= c /\ forall x, In x t -> x <= c.
Proof.
  unfold max_element. revert h. induction t as [|y t IH]; intros h; cbn [fold_left].
  - split; [ intros H; split; [ exact H | intros x [] ] | intros [H _]; exact H ].
  - rewrite IH. unfold Rltb. destruct (Rlt_dec h y) as [Hl|Hl]; split.
    + intros [H1 H2]. split; [ lra | ]. intros x [<-|Hx]; [ exact H1 | exact (H2 x Hx) ].
    + intros [H1 H2]. split; [ apply H2; left; reflexivity | intros x Hx; apply H2; right; exact Hx ].
    + intros [H1 H2]. split; [ exact H1 | ]. intros x [<-|Hx]; [ lra | exact (H2 x Hx) ].
    + intros [H1 H2]. split; [ exact H1 | intros x Hx; apply H2; right; exact Hx ].
Qed.
Lemma min_element_le h t c : c <= min_element h t <-> c <= h /\ forall x, In x t -> c <= x.
Proof.
  unfold min_element. revert h. induction t as [|y t IH]; intros h; cbn [fold_left].
  - split; [ intros H; split; [ exact H | intros x [] ] | intros [H _]; exact H ].
  - rewrite IH. unfold Rltb. destruct (Rlt_dec y h) as [Hl|Hl]; split.
    + intros [H1 H2]. split; [ lra | ]. intros x [<-|Hx]; [ exact H1 | exact (H2 x Hx) ].
    + intros [H1 H2]. split; [ apply H2; left; reflexivity | intros x Hx; apply H2; right; exact Hx ].
    + intros [H1 H2]. split; [ exact H1 | ]. intros x [<-|Hx]; [ lra | exact (H2 x Hx) ].
    + intros [H1 H2]. split; [ exact H1 | intros x Hx; apply H2; right; exact Hx ].
Qed.
Lemma div_le a s k : 0 < s -> (a / s <= k <-> a <= k * s).
Proof.
  intros Hs. split; intros H.
  - apply (Rmult_le_compat_r s) in H; [ | lra ]. replace (a / s * s) with a in H by (field; lra). exact H.
  - apply (Rmult_le_reg_r s); [ exact Hs | ]. replace (a / s * s) with a by (field; lra). exact H.
Qed.
Lemma le_div a s k : 0 < s -> (k <= a / s <-> k * s <= a).
Proof.
  intros Hs. split; intros H.
  - apply (Rmult_le_compat_r s) in H; [ | lra ]. replace (a / s * s) with a in H by (field; lra). exact H.
  - apply (Rmult_le_reg_r s); [ exact Hs | ]. replace (a / s * s) with a by (field; lra). exact H.
Qed.

Lemma linear_integral C a b : is_RInt (fun k => C * k) a b (C * (b * b - a * a) / 2).
Proof.
  replace (C * (b * b - a * a) / 2) with (minus (C * b * b / 2) (C * a * a / 2)) by (unfold minus, plus, opp; cbn; field).
  apply (@is_RInt_derive R_CompleteNormedModule (fun k => C * k * k / 2) (fun k => C * k)).
  - intros x _. auto_derive; [ trivial | field ].
  - intros x _. apply (continuous_mult (fun _ => C) (fun k => k)); [ apply continuous_const | apply continuous_id ].
Qed.

Section Dir.
Variables (pb qb : list R) (pp qp p q : nat) (phi x : R).
Hypothesis Hphi : 0 < phi < PI / 2.
Hypothesis Hx : -1 < x < 1.
Hypothesis Bp' : 0 <= lower pb pp.
Hypothesis Bq' : 0 <= lower qb qp.
Hypothesis Bp : 0 <= lower pb p.
Hypothesis Bq : 0 <= lower qb q.
Let s := sin phi.
Let c := cos phi.
Let z1 := pi1_tilde s c x.
Let z2 := pi2_tilde s c x.
Let kmin := max_element (lower pb pp / s) [lower qb qp / c; lower pb p / z1; lower qb q / z2].
Let kmax := min_element (upper pb pp / s) [upper qb qp / c; upper pb p / z1; upper qb q / z2].

Lemma dir_pos : 0 < s /\ 0 < c /\ 0 < z1 /\ 0 < z2.
Proof.
  destruct (phi_sin_cos phi Hphi) as [Hs Hc]. repeat split; try assumption.
  - apply pi1_pos; assumption.
  - apply pi2_pos; assumption.
Qed.

Lemma in_cells_k k : 0 < k ->
  (in_cells (fun a b => pi1_tilde a b x) (fun a b => pi2_tilde a b x) pb qb pp qp p q (k * sin phi) (k * cos phi) <-> kmin <= k <= kmax).
Proof.
  intros Hk. destruct dir_pos as (Hs & Hc & H1 & H2).
  unfold in_cells, within. fold s c. rewrite pi1_scale, pi2_scale by lra. fold z1 z2.
  unfold kmin, kmax. rewrite max_element_le, min_element_le, !all_pairs4.
  rewrite !div_le, !le_div by assumption. tauto.
Qed.

Lemma kmin_nonneg : 0 <= kmin.
Proof.
  destruct dir_pos as (Hs & _). apply Rle_trans with (lower pb pp / s); [ | apply max_element_ge ].
  apply Rmult_le_pos; [ exact Bp' | left; apply Rinv_0_lt_compat; exact Hs ].
Qed.

Lemma term_value wx w G : exists v,
  direction_integral (fun a b => pi1_tilde a b x) (fun a b => pi2_tilde a b x) pb qb pp qp p q phi v /\
  element_term (lower pb pp) (upper pb pp) (lower qb qp) (upper qb qp) (lower pb p) (upper pb p) (lower qb q) (upper qb q)
    x wx s c w G = wx * w * G * v.
Proof.
  destruct dir_pos as (Hs & Hc & H1 & H2). unfold element_term. cbv zeta. fold z1 z2. fold kmin kmax.
  unfold Rltb. destruct (Rlt_dec kmax kmin) as [Hl|Hl].
  - exists 0. split; [ | ring ]. left. split; [ | reflexivity ]. intros k Hk Hin. apply in_cells_k in Hin; [ lra | exact Hk ].
  - exists (s * c / (z1 * z2) * (kmax * kmax - kmin * kmin) / 2). split; [ | field; lra ].
    right. exists kmin, kmax. pose proof kmin_nonneg as Hn. split; [ lra | ]. split; [ exact in_cells_k | ].
    apply (is_RInt_ext (fun k => s * c / (z1 * z2) * k)); [ | apply linear_integral ].
    intros k Hk. rewrite Rmin_left, Rmax_right in Hk by lra. cbv zeta. fold s c. rewrite pi1_scale, pi2_scale by lra. fold z1 z2.
    match goal with |- ?a = ?b => change (@eq R a b) end. field. repeat split; try lra.
Qed.
End Dir.

Lemma sum_choice (P : nat -> nat -> R -> Prop) (f : nat -> nat -> R -> R) (t : nat -> nat -> R) N M :
  (forall i j, (i < N)%nat -> (j < M)%nat -> exists v, P i j v /\ t i j = f i j v) ->
  exists r : nat -> nat -> R, forall i j, (i < N)%nat -> (j < M)%nat -> P i j (r i j) /\ t i j = f i j (r i j).
Proof.
  intros H.
  assert (Hj : forall i, (i < N)%nat -> forall m, (m <= M)%nat -> exists r : nat -> R, forall j, (j < m)%nat -> P i j (r j) /\ t i j = f i j (r j)).
  { intros i Hi m. induction m as [|m IH]; intros Hm; [ exists (fun _ => 0); intros j Hj; lia | ].
    destruct (IH ltac:(lia)) as [r Hr]. destruct (H i m Hi ltac:(lia)) as [v Hv].
    exists (fun j => if Nat.eqb j m then v else r j). intros j Hj.
    destruct (Nat.eqb_spec j m) as [->|Hn]; [ exact Hv | apply Hr; lia ]. }
  assert (Hi : forall n, (n <= N)%nat -> exists r : nat -> nat -> R, forall i j, (i < n)%nat -> (j < M)%nat -> P i j (r i j) /\ t i j = f i j (r i j)).
  { intros n. induction n as [|n IH]; intros Hn; [ exists (fun _ _ => 0); intros i j Hi; lia | ].
    destruct (IH ltac:(lia)) as [r Hr]. destruct (Hj n ltac:(lia) M (le_n M)) as [r' Hr'].
    exists (fun i j => if Nat.eqb i n then r' j else r i j). intros i j Hi Hm.
    destruct (Nat.eqb_spec i n) as [->|Hne]; [ exact (Hr' j Hm) | apply Hr; lia ]. }
  exact (Hi N (le_n N)).
Qed.

Lemma element_value roots Np Nq pb qb xs wxs angles ws G p q pp qp :
  partition_from_zero Np pb -> partition_from_zero Nq qb -> mesh_in (-1) 1 xs -> mesh_in 0 (PI / 2) angles ->
  length angles = length roots -> length ws = length roots -> length wxs = length xs ->
  length G = (length roots * length xs)%nat ->
  (p < Np)%nat -> (q < Nq)%nat -> (pp < Np)%nat -> (qp < Nq)%nat ->
  exists v : nat -> nat -> R,
    (forall j xi, (j < length roots)%nat -> (xi < length xs)%nat ->
       direction_integral (fun a b => pi1_tilde a b (nth xi xs 0)) (fun a b => pi2_tilde a b (nth xi xs 0))
         pb qb pp qp p q (nth j angles 0) (v j xi)) /\
    P123_element roots G p q pp qp pb qb xs wxs (map sin angles) (map cos angles) ws =
    Ok (sum (fun xi => sum (fun j => nth xi wxs 0 * nth j ws 0 * nth (j * length xs + xi) G 0 * v j xi) (length roots)) (length xs)
        / (sqrt (upper qb q - lower qb q) * sqrt (upper pb p - lower pb p)
           * sqrt (upper qb qp - lower qb qp) * sqrt (upper pb pp - lower pb pp))).
Proof.
  intros Pp Pq Mx Ma La Lw Lwx LG Hp Hq Hpp Hqp.
  pose proof (bin_order roots Np pb pp Pp Hpp) as O1. pose proof (bin_order roots Np pb p Pp Hp) as O2.
  pose proof (bin_order roots Nq qb qp Pq Hqp) as O3. pose proof (bin_order roots Nq qb q Pq Hq) as O4.
  pose proof (proj1 Pp) as Lp. pose proof (proj1 Pq) as Lq.
  set (n := length roots) in *.
  set (T := fun j xi => element_term (lower pb pp) (upper pb pp) (lower qb qp) (upper qb qp) (lower pb p) (upper pb p) (lower qb q) (upper qb q)
    (nth xi xs 0) (nth xi wxs 0) (sin (nth j angles 0)) (cos (nth j angles 0)) (nth j ws 0) (nth (j * length xs + xi) G 0)).
  destruct (sum_choice (fun j xi v => direction_integral (fun a b => pi1_tilde a b (nth xi xs 0)) (fun a b => pi2_tilde a b (nth xi xs 0))
         pb qb pp qp p q (nth j angles 0) v)
      (fun j xi v => nth xi wxs 0 * nth j ws 0 * nth (j * length xs + xi) G 0 * v) T n (length xs)) as [v Hv].
  { intros j xi Hj Hxi. apply term_value; try lra.
    - apply Ma. apply nth_In. lia.
    - apply Mx. apply nth_In. lia. }
  exists v. split; [ intros j xi Hj Hxi; exact (proj1 (Hv j xi Hj Hxi)) | ].
  unfold P123_element.
  rewrite (aread_nth pb p 0), (aread_nth pb (p + 1) 0), (aread_nth qb q 0), (aread_nth qb (q + 1) 0),
    (aread_nth pb pp 0), (aread_nth pb (pp + 1) 0), (aread_nth qb qp 0), (aread_nth qb (qp + 1) 0) by lia. cbn [obind].
  rewrite (ofold_sum (fun xi => sum (fun j => T j xi) n)).
  - cbn [obind]. rewrite Rplus_0_l. f_equal. f_equal.
    apply sum_ext. intros xi Hxi. apply sum_ext. intros j Hj. exact (proj2 (Hv j xi Hj Hxi)).
  - intros xi a Hxi. rewrite (aread_nth xs xi 0), (aread_nth wxs xi 0) by lia. cbn [obind].
    apply ofold_sum. intros j b Hj. change (Nphi roots) with n in Hj.
    rewrite (aread_nth _ j (sin 0)), (aread_nth (map cos _) j (cos 0)), (aread_nth ws j 0), (aread_nth G _ 0);
      try (rewrite ?map_length; lia).
    2:{ rewrite LG. pose proof (rm_lt n (length xs) j xi Hj Hxi). lia. }
    cbn [obind]. rewrite !map_nth. reflexivity.
Qed.

Lemma gauss_angles roots dleg Np Nq pb qb xs phi wphi tab :
  length pb = (Np + 1)%nat -> length qb = (Nq + 1)%nat ->
  length phi = (Nq * Np * length roots)%nat -> length wphi = (Nq * Np * length roots)%nat -> length tab = (Nq * Nq * Np * Np)%nat ->
  exists phi' wphi' tab', calculate_WP_overlap roots dleg Np Nq pb qb xs (phi, wphi, tab) = Ok (phi', wphi', tab') /\
    forall qp pp j, (qp < Nq)%nat -> (pp < Np)%nat -> (j < length roots)%nat ->
      let lo := atan_ratio (lower pb pp) (upper qb qp) in
      let hi := atan_ratio (upper pb pp) (lower qb qp) in
      let t := nth j roots 0 in
      nth ((qp * Np + pp) * length roots + j) phi' 0 = lo + (hi - lo) * ((t + 1) / 2) /\
      nth ((qp * Np + pp) * length roots + j) wphi' 0 = (hi - lo) / 2 * (2 / ((1 - t * t) * (dleg t * dleg t))).
Proof.
  intros Lp Lq L1 L2 L3. destruct (overlap_run roots dleg Np Nq pb qb xs phi wphi tab Lp Lq L1 L2 L3)
    as (phi' & wphi' & tab' & E & _ & _ & _ & H & _).
  exists phi', wphi', tab'. split; [ exact E | ]. intros qp pp j Hq Hp Hj lo hi t.
  destruct (H qp pp j Hq Hp Hj) as [H1 H2].
  rewrite (nth_error_nth _ _ 0 H1), (nth_error_nth _ _ 0 H2).
  unfold phiF, wphiF, gp_node, gp_weight. unfold loA, hiA. fold lo hi t.
  replace 2.0 with 2 by lra. replace 1.0 with 1 by lra. split; [ field | ].
  generalize (1 - t * t), (dleg t * dleg t). intros A D. unfold Rdiv. rewrite (Rinv_mult A D). ring.
Qed.
