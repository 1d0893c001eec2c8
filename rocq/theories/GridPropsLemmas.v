From Coq Require Import Reals Lra String.
From Coquelicot Require Import Coquelicot.
From Verif Require Import Common ArrayLib SwpModel GridModel GridSpec GridProofs.
Open Scope R_scope.

Section Lemmas.
Variables (lines : string -> list string) (parse : string -> option R) (gx gw junk : nat -> list R).
Hypothesis Hjunk : forall n, length (junk n) = n.
Hypothesis Hgx : forall n, length (gx n) = n.
Hypothesis Hgw : forall n, length (gw n) = n.
Notation mk := (make_fwp lines parse gx gw junk).

(* everything after the boundaries succeeds, and what it holds *)
Lemma make_fwp_ok g pWP qWP :
  p_bin_grid lines parse g (junk (gp_Np g + 1)) = Ok pWP -> q_bin_grid lines parse g (junk (gp_Nq g + 1)) = Ok qWP ->
  length pWP = (gp_Np g + 1)%nat -> length qWP = (gp_Nq g + 1)%nat ->
  exists f, mk g = Ok f /\ f_pWP f = pWP /\ f_qWP f = qWP /\
    f_np f = map (fun i => sqrt (nth (i + 1) pWP 0 - nth i pWP 0)) (seq 0 (gp_Np g)) /\
    f_nq f = map (fun i => sqrt (nth (i + 1) qWP 0 - nth i qWP 0)) (seq 0 (gp_Nq g)) /\
    (forall x, In x (f_fp f) \/ In x (f_fq f) -> x = 1) /\
    (gp_midpoint g = true ->
       f_p f = map (fun i => 0.5 * (nth i pWP 0 + nth (i + 1) pWP 0)) (seq 0 (gp_Np g)) /\
       f_q f = map (fun i => 0.5 * (nth i qWP 0 + nth (i + 1) qWP 0)) (seq 0 (gp_Nq g))) /\
    (gp_midpoint g = false -> exists wp wq, f_wp f = Some wp /\ f_wq f = Some wq /\
       quadrature_grids gx gw (gp_Np g) (gp_Np_per g) pWP (junk (gp_Np_per g * gp_Np g), junk (gp_Np_per g * gp_Np g))%nat = Ok (f_p f, wp) /\
       quadrature_grids gx gw (gp_Nq g) (gp_Nq_per g) qWP (junk (gp_Nq_per g * gp_Nq g), junk (gp_Nq_per g * gp_Nq g))%nat = Ok (f_q f, wq)).
Proof.
  intros Ep Eq Lp Lq. unfold make_fwp. rewrite Ep, Eq. cbn [obind].
  assert (W1 : forall n x, In x (map (fun _ : nat => 1) (seq 0 n)) -> x = 1).
  { intros n x Hx. apply in_map_iff in Hx. destruct Hx as (? & <- & _). reflexivity. }
  destruct (gp_midpoint g).
  - rewrite !midpoints_ok by (try assumption; apply Hjunk). cbn [obind].
    rewrite !weights_ok by (try apply Hjunk; rewrite map_length, seq_length; reflexivity). cbn [obind].
    rewrite !norms_ok by (try assumption; apply Hjunk). cbn [obind].
    eexists; split; [ reflexivity | ]. cbn [f_pWP f_qWP f_np f_nq f_fp f_fq f_p f_q].
    repeat split; try discriminate. intros x [Hx|Hx]; exact (W1 _ _ Hx).
  - destruct (quadrature_ok gx gw (gp_Np g) (gp_Np_per g) pWP (junk (gp_Np_per g * gp_Np g)) (junk (gp_Np_per g * gp_Np g)))
      as (p & wp & E1 & L1 & L2 & _); auto.
    destruct (quadrature_ok gx gw (gp_Nq g) (gp_Nq_per g) qWP (junk (gp_Nq_per g * gp_Nq g)) (junk (gp_Nq_per g * gp_Nq g)))
      as (q & wq & E2 & L3 & L4 & _); auto.
    rewrite E1, E2. cbn [obind].
    rewrite !weights_ok by (try apply Hjunk; assumption). cbn [obind].
    rewrite !norms_ok by (try assumption; apply Hjunk). cbn [obind].
    eexists; split; [ reflexivity | ]. cbn [f_pWP f_qWP f_np f_nq f_fp f_fq f_p f_q f_wp f_wq].
    repeat split; try discriminate.
    + intros x [Hx|Hx]; exact (W1 _ _ Hx).
    + intros _. exists wp, wq. auto.
Qed.

Lemma cheb_partition N s t : 0 < s -> 0 < t -> partition_from_zero N (cheb_list N s t).
Proof.
  intros Hs Ht. split; [ apply cheb_list_len | ]. split; [ apply cheb_list_0 | ]. intros. apply cheb_list_lt; assumption.
Qed.

Lemma norms_pos N b i : partition_from_zero N b -> (i < N)%nat ->
  0 < nth i (map (fun i => sqrt (nth (i + 1) b 0 - nth i b 0)) (seq 0 N)) 0 /\
  nth i (map (fun i => sqrt (nth (i + 1) b 0 - nth i b 0)) (seq 0 N)) 0 * nth i (map (fun i => sqrt (nth (i + 1) b 0 - nth i b 0)) (seq 0 N)) 0
  = upper b i - lower b i.
Proof.
  intros (L & _ & H) Hi. rewrite nth_map_seq by exact Hi. specialize (H i (i + 1)%nat ltac:(lia)). unfold upper, lower.
  split; [ apply sqrt_lt_R0; lra | apply sqrt_sqrt; lra ].
Qed.
Lemma mid_inside N b i : partition_from_zero N b -> (i < N)%nat ->
  let m := nth i (map (fun i => 0.5 * (nth i b 0 + nth (i + 1) b 0)) (seq 0 N)) 0 in
  lower b i < m < upper b i /\ m - lower b i = upper b i - m.
Proof.
  intros (L & _ & H) Hi m. unfold m. rewrite nth_map_seq by exact Hi. specialize (H i (i + 1)%nat ltac:(lia)). unfold upper, lower. lra.
Qed.

Lemma chebyshev_grids g :
  gp_p_type g = "chebyshev"%string -> gp_q_type g = "chebyshev"%string -> 0 < gp_s g -> 0 < gp_t g ->
  exists f, mk g = Ok f /\
    partition_from_zero (gp_Np g) (f_pWP f) /\ partition_from_zero (gp_Nq g) (f_qWP f) /\
    (forall i, (1 <= i <= gp_Np g)%nat ->
       nth i (f_pWP f) 0 = gp_s g * Rpower (tan ((2 * INR i - 1) * PI / (4 * INR (gp_Np g)))) (gp_t g)) /\
    (forall i, (i < gp_Np g)%nat -> 0 < nth i (f_np f) 0 /\ nth i (f_np f) 0 * nth i (f_np f) 0 = upper (f_pWP f) i - lower (f_pWP f) i) /\
    (forall i, (i < gp_Nq g)%nat -> 0 < nth i (f_nq f) 0 /\ nth i (f_nq f) 0 * nth i (f_nq f) 0 = upper (f_qWP f) i - lower (f_qWP f) i) /\
    (gp_midpoint g = true ->
      (forall i, (i < gp_Np g)%nat -> lower (f_pWP f) i < nth i (f_p f) 0 < upper (f_pWP f) i /\
         nth i (f_p f) 0 - lower (f_pWP f) i = upper (f_pWP f) i - nth i (f_p f) 0) /\
      (forall i, (i < gp_Nq g)%nat -> lower (f_qWP f) i < nth i (f_q f) 0 < upper (f_qWP f) i /\
         nth i (f_q f) 0 - lower (f_qWP f) i = upper (f_qWP f) i - nth i (f_q f) 0)).
Proof.
  intros Tp Tq Hs Ht.
  assert (Ep : p_bin_grid lines parse g (junk (gp_Np g + 1)) = Ok (cheb_list (gp_Np g) (gp_s g) (gp_t g))).
  { unfold p_bin_grid. rewrite Tp. cbn [String.eqb]. apply make_chebyshev_ok. apply Hjunk. }
  assert (Eq : q_bin_grid lines parse g (junk (gp_Nq g + 1)) = Ok (cheb_list (gp_Nq g) (gp_s g) (gp_t g))).
  { unfold q_bin_grid. rewrite Tq. cbn [String.eqb]. apply make_chebyshev_ok. apply Hjunk. }
  destruct (make_fwp_ok g _ _ Ep Eq) as (f & Ef & F1 & F2 & Np & Nq & _ & Hm & _); try apply cheb_list_len.
  pose proof (cheb_partition (gp_Np g) (gp_s g) (gp_t g) Hs Ht) as Pp.
  pose proof (cheb_partition (gp_Nq g) (gp_s g) (gp_t g) Hs Ht) as Pq.
  exists f. rewrite F1, F2. split; [ exact Ef | ]. split; [ exact Pp | ]. split; [ exact Pq | ].
  split; [ intros i Hi; rewrite cheb_list_S by exact Hi; reflexivity | ].
  split; [ intros i Hi; rewrite Np; exact (norms_pos _ _ i Pp Hi) | ].
  split; [ intros i Hi; rewrite Nq; exact (norms_pos _ _ i Pq Hi) | ].
  intros Em. destruct (Hm Em) as [-> ->]. split; intros i Hi; [ exact (mid_inside _ _ i Pp Hi) | exact (mid_inside _ _ i Pq Hi) ].
Qed.

(* C15 *)
Lemma q_grid_cases g b :
  (gp_q_type g = "chebyshev"%string \/ (gp_q_type g = "custom"%string /\ gp_p_type g = "custom"%string)
   \/ (gp_q_type g <> "chebyshev"%string /\ gp_q_type g <> "custom"%string /\ gp_p_type g <> "custom"%string)) ->
  q_bin_grid lines parse g b =
   if String.eqb (gp_q_type g) "chebyshev" then make_chebyshev (gp_Nq g) b (gp_s g) (gp_t g)
   else if String.eqb (gp_q_type g) "custom" then read_boundaries lines parse b (gp_Nq g) (gp_q_file g)
   else Err.
Proof.
  unfold q_bin_grid. intros [->|[[-> ->]|(H1 & H2 & H3)]]; try reflexivity.
  apply String.eqb_neq in H1, H2, H3. rewrite H1, H2, H3. reflexivity.
Qed.
End Lemmas.

Lemma sum_ext f g n : (forall i, (i < n)%nat -> f i = g i) -> sum f n = sum g n.
Proof.
  intros H. unfold sum. f_equal. apply map_ext_in. intros i Hi. apply in_seq in Hi. apply H. lia.
Qed.
Lemma sum_scal c f n : sum (fun i => c * f i) n = c * sum f n.
Proof.
  unfold sum. induction (seq 0 n) as [|i l IH]; cbn; [ ring | ]. rewrite IH. ring.
Qed.

(* C16 *)
Lemma quadrature_props gx gw N n bounds x w :
  length (gx n) = n -> length (gw n) = n -> length bounds = (N + 1)%nat -> length x = (n * N)%nat -> length w = (n * N)%nat ->
  exists x' w', quadrature_grids gx gw N n bounds (x, w) = Ok (x', w') /\ length x' = (n * N)%nat /\ length w' = (n * N)%nat /\
   forall k, (k < N)%nat ->
    let a := nth k bounds 0 in let b := nth (k + 1) bounds 0 in
    let X i := nth (k * n + i) x' 0 in let W i := nth (k * n + i) w' 0 in
    (forall i, (i < n)%nat -> a < b -> -1 < nth i (gx n) 0 < 1 -> a < X i < b) /\
    (forall i j, (i < n)%nat -> (j < n)%nat -> a < b -> nth i (gx n) 0 < nth j (gx n) 0 -> X i < X j) /\
    sum W n = (b - a) / 2 * sum (fun i => nth i (gw n) 0) n /\
    (forall F : R -> R, a < b ->
       is_RInt (fun t => F (a + (b - a) * (t + 1) / 2)) (-1) 1
         (sum (fun i => nth i (gw n) 0 * F (a + (b - a) * (nth i (gx n) 0 + 1) / 2)) n) ->
       is_RInt F a b (sum (fun i => W i * F (X i)) n)).
Proof.
  intros Lgx Lgw Lb Lx Lw.
  destruct (quadrature_ok gx gw N n bounds x w Lgx Lgw Lb Lx Lw) as (x' & w' & E & L1 & L2 & H).
  exists x', w'. split; [ exact E | ]. split; [ exact L1 | ]. split; [ exact L2 | ]. intros k Hk a b X W.
  assert (HX : forall i, (i < n)%nat -> X i = 0.5 * (b - a) * nth i (gx n) 0 + 0.5 * (b + a)) by (intros i Hi; apply (H k i Hk Hi)).
  assert (HW : forall i, (i < n)%nat -> W i = 0.5 * (b - a) * nth i (gw n) 0) by (intros i Hi; apply (H k i Hk Hi)).
  clearbody a b X W. split; [ | split; [ | split ] ].
  - intros i Hi Hab Hr. rewrite HX by exact Hi. nra.
  - intros i j Hi Hj Hab Hr. rewrite !HX by assumption. nra.
  - rewrite <- sum_scal. apply sum_ext. intros i Hi. rewrite HW by exact Hi. cbn beta. lra.
  - intros F Hab HI. set (u := (b - a) / 2). assert (Hu : 0 < u) by (unfold u; lra).
    assert (Ha : a = u * (-1) + (b + a) / 2) by (unfold u; lra). assert (Hb : b = u * 1 + (b + a) / 2) by (unfold u; lra).
    set (l := sum (fun i => nth i (gw n) 0 * F (a + (b - a) * (nth i (gx n) 0 + 1) / 2)) n) in *.
    replace (sum (fun i => W i * F (X i)) n) with (u * l).
    2:{ unfold l. rewrite <- sum_scal. apply sum_ext. intros i Hi. rewrite HW, HX by exact Hi. unfold u.
        replace (0.5 * (b - a) * nth i (gx n) 0 + 0.5 * (b + a)) with (a + (b - a) * (nth i (gx n) 0 + 1) / 2) by lra. cbn beta. set (Z := F _). clearbody Z. lra. }
    set (h := fun t => F (a + (b - a) * (t + 1) / 2)) in *.
    assert (H1 : is_RInt (fun y => / u * h (/ u * y + - ((b + a) / 2) / u)) a b l).
    { apply (@is_RInt_comp_lin R_NormedModule h (/ u) (- ((b + a) / 2) / u) a b l).
      replace (/ u * a + - ((b + a) / 2) / u) with (-1) by (unfold u; field; lra).
      replace (/ u * b + - ((b + a) / 2) / u) with 1 by (unfold u; field; lra). exact HI. }
    apply (@is_RInt_scal R_NormedModule _ a b u l) in H1.
    eapply is_RInt_ext; [ | exact H1 ]. intros y _. unfold scal; cbn; unfold mult; cbn. unfold h.
    rewrite <- Rmult_assoc, Rinv_r, Rmult_1_l by lra. f_equal. unfold u. field. lra.
Qed.

(* ---------- kinematics ---------- *)
Section Kin.
Variable Eb : R.
Hypothesis HEb : - (Mn + Mp) < Eb.
Let Md := deuteron_mass Eb.
Lemma Md_pos : 0 < Md.
Proof. unfold Md, deuteron_mass. lra. Qed.
Lemma Mp_pos : 0 < Mp.
Proof. unfold Mp; lra. Qed.

Lemma lab_rad_nonneg T : 0 <= T -> 0 <= Md * Md * T * (T + 2 * Mp) / ((Mp + Md) * (Mp + Md) + 2 * T * Md).
Proof.
  intros HT. pose proof Md_pos. pose proof Mp_pos. apply Rmult_le_pos.
  - apply Rmult_le_pos; [ apply Rmult_le_pos; [ nra | exact HT ] | lra ].
  - left. apply Rinv_0_lt_compat. nra.
Qed.

Lemma com_momentum_physical T : 0 <= T -> com_momentum_of Mp Md T (lab_energy_to_com_momentum T Eb).
Proof.
  intros HT. pose proof Md_pos. pose proof Mp_pos. unfold lab_energy_to_com_momentum. fold Md.
  split; [ apply sqrt_pos | ]. rewrite sqrt_sqrt by (apply lab_rad_nonneg; exact HT).
  unfold inv_mass_sq. field. nra.
Qed.

Lemma com_to_lab_T T : 0 <= T -> com_momentum_to_lab_energy (lab_energy_to_com_momentum T Eb) Eb = T.
Proof.
  intros HT. pose proof Md_pos as HM. pose proof Mp_pos as Hm. unfold com_momentum_to_lab_energy. fold Md.
  set (q := lab_energy_to_com_momentum T Eb).
  assert (Hq : q * q = Md * Md * T * (T + 2 * Mp) / ((Mp + Md) * (Mp + Md) + 2 * T * Md)).
  { unfold q, lab_energy_to_com_momentum. fold Md. apply sqrt_sqrt, lab_rad_nonneg, HT. }
  replace (- q * q * (Mp + Md) * (Mp + Md) / (Md * Md)) with (- (q * q) * (Mp + Md) * (Mp + Md) / (Md * Md)) by (field; lra).
  rewrite Hq. set (D := (Mp + Md) * (Mp + Md) + 2 * T * Md). assert (HD : 0 < D) by (unfold D; nra).
  assert (Hs : sqrt (2 * (Mp - Md * Md * T * (T + 2 * Mp) / D / Md) * (2 * (Mp - Md * Md * T * (T + 2 * Mp) / D / Md))
      - 4 * (- (Md * Md * T * (T + 2 * Mp) / D) * (Mp + Md) * (Mp + Md) / (Md * Md)))
      = 2 * T + 2 * (Mp - Md * Md * T * (T + 2 * Mp) / D / Md)).
  { apply sqrt_lem_1.
    - assert (X : 0 <= Md * Md * T * (T + 2 * Mp) / D) by (apply lab_rad_nonneg; exact HT).
      assert (Y : 0 <= Md * Md * T * (T + 2 * Mp) / D * (Mp + Md) * (Mp + Md) / (Md * Md)).
      { apply Rmult_le_pos; [ | left; apply Rinv_0_lt_compat; nra ]. apply Rmult_le_pos; [ | lra ]. apply Rmult_le_pos; lra. }
      replace (4 * (- (Md * Md * T * (T + 2 * Mp) / D) * (Mp + Md) * (Mp + Md) / (Md * Md)))
        with (- (4 * (Md * Md * T * (T + 2 * Mp) / D * (Mp + Md) * (Mp + Md) / (Md * Md)))) by (field; lra).
      pose proof (Rle_0_sqr (2 * (Mp - Md * Md * T * (T + 2 * Mp) / D / Md))) as Z. unfold Rsqr in Z. lra.
    - replace (2 * T + 2 * (Mp - Md * Md * T * (T + 2 * Mp) / D / Md)) with
        (2 * ((T * D + Mp * D - Md * T * (T + 2 * Mp)) / D)) by (field; lra).
      apply Rmult_le_pos; [ lra | ]. apply Rmult_le_pos; [ | left; apply Rinv_0_lt_compat; exact HD ].
      replace (T * D + Mp * D - Md * T * (T + 2 * Mp)) with (Md * (T * T) + T * (Mp * Mp + Md * Md) + Mp * D) by (unfold D; ring).
      assert (0 <= Md * (T * T)) by (apply Rmult_le_pos; nra). assert (0 <= T * (Mp * Mp + Md * Md)) by (apply Rmult_le_pos; nra).
      assert (0 <= Mp * D) by (apply Rmult_le_pos; lra). lra.
    - unfold D. field. split; [ | lra ]. fold D. lra. }
  rewrite Hs. lra.
Qed.

Lemma lab_increasing : strictly_increasing_from_0 (fun T => lab_energy_to_com_momentum T Eb).
Proof.
  intros x y Hx Hxy. pose proof Md_pos as HM. pose proof Mp_pos as Hm. unfold lab_energy_to_com_momentum. fold Md.
  apply sqrt_lt_1_alt. split; [ apply lab_rad_nonneg; exact Hx | ].
  assert (Dx : 0 < (Mp + Md) * (Mp + Md) + 2 * x * Md) by nra.
  assert (Dy : 0 < (Mp + Md) * (Mp + Md) + 2 * y * Md) by nra.
  apply (Rmult_lt_reg_r ((Mp + Md) * (Mp + Md) + 2 * x * Md)); [ exact Dx | ].
  apply (Rmult_lt_reg_r ((Mp + Md) * (Mp + Md) + 2 * y * Md)); [ exact Dy | ].
  replace (Md * Md * x * (x + 2 * Mp) / ((Mp + Md) * (Mp + Md) + 2 * x * Md) * ((Mp + Md) * (Mp + Md) + 2 * x * Md) * ((Mp + Md) * (Mp + Md) + 2 * y * Md))
    with (Md * Md * (x * (x + 2 * Mp) * ((Mp + Md) * (Mp + Md) + 2 * y * Md))) by (field; lra).
  replace (Md * Md * y * (y + 2 * Mp) / ((Mp + Md) * (Mp + Md) + 2 * y * Md) * ((Mp + Md) * (Mp + Md) + 2 * x * Md) * ((Mp + Md) * (Mp + Md) + 2 * y * Md))
    with (Md * Md * (y * (y + 2 * Mp) * ((Mp + Md) * (Mp + Md) + 2 * x * Md))) by (field; lra).
  apply Rmult_lt_compat_l; [ nra | ].
  apply Rminus_gt_0_lt.
  replace (y * (y + 2 * Mp) * ((Mp + Md) * (Mp + Md) + 2 * x * Md) - x * (x + 2 * Mp) * ((Mp + Md) * (Mp + Md) + 2 * y * Md))
    with ((y - x) * ((y + x + 2 * Mp) * ((Mp + Md) * (Mp + Md)) + 2 * (x * (y * Md)))) by ring.
  apply Rmult_lt_0_compat; [ lra | ]. assert (0 <= x * (y * Md)) by (apply Rmult_le_pos; [ lra | apply Rmult_le_pos; lra ]).
  assert (0 < (y + x + 2 * Mp) * ((Mp + Md) * (Mp + Md))) by (apply Rmult_lt_0_compat; nra). lra.
Qed.

(* the other direction: q -> T -> q *)
Lemma lab_to_com_q q : 0 <= q -> 0 <= com_momentum_to_lab_energy q Eb /\ lab_energy_to_com_momentum (com_momentum_to_lab_energy q Eb) Eb = q.
Proof.
  intros Hq. pose proof Md_pos as HM. pose proof Mp_pos as Hm.
  unfold com_momentum_to_lab_energy. fold Md.
  set (b := 2 * (Mp - q * q / Md)). set (c := - q * q * (Mp + Md) * (Mp + Md) / (Md * Md)).
  assert (Hc : c <= 0).
  { unfold c. replace (- q * q * (Mp + Md) * (Mp + Md) / (Md * Md)) with (- ((q * (Mp + Md) / Md) * (q * (Mp + Md) / Md))) by (field; lra).
    pose proof (Rle_0_sqr (q * (Mp + Md) / Md)) as Z. unfold Rsqr in Z. lra. }
  set (T := 0.5 * (- b + sqrt (b * b - 4 * c))).
  assert (Hd : 0 <= b * b - 4 * c) by (pose proof (Rle_0_sqr b) as Z; unfold Rsqr in Z; lra).
  assert (Hs : sqrt (b * b - 4 * c) * sqrt (b * b - 4 * c) = b * b - 4 * c) by (apply sqrt_sqrt; exact Hd).
  pose proof (sqrt_pos (b * b - 4 * c)) as Hsp. set (S := sqrt (b * b - 4 * c)) in *.
  assert (HT : 0 <= T).
  { unfold T. assert (b <= S); [ | lra ]. destruct (Rle_dec b 0); [ lra | ]. apply Rsqr_incr_0_var; [ unfold Rsqr; lra | exact Hsp ]. }
  assert (Heq : T * T + b * T + c = 0).
  { unfold T. replace (0.5 * (- b + S) * (0.5 * (- b + S)) + b * (0.5 * (- b + S)) + c) with (0.25 * (S * S - b * b) + c) by lra.
    rewrite Hs. lra. }
  clearbody T. split; [ exact HT | ].
  unfold lab_energy_to_com_momentum. fold Md.
  replace (Md * Md * T * (T + 2 * Mp) / ((Mp + Md) * (Mp + Md) + 2 * T * Md)) with (q * q); [ apply sqrt_square; exact Hq | ].
  assert (HD : 0 < (Mp + Md) * (Mp + Md) + 2 * T * Md) by nra.
  apply (Rmult_eq_reg_r ((Mp + Md) * (Mp + Md) + 2 * T * Md)); [ | lra ].
  replace (Md * Md * T * (T + 2 * Mp) / ((Mp + Md) * (Mp + Md) + 2 * T * Md) * ((Mp + Md) * (Mp + Md) + 2 * T * Md))
    with (Md * Md * (T * T + 2 * Mp * T)) by (field; lra).
  assert (X : Md * Md * (T * T + b * T + c) = 0) by (rewrite Heq; ring).
  unfold b, c in X.
  replace (Md * Md * (T * T + 2 * (Mp - q * q / Md) * T + - q * q * (Mp + Md) * (Mp + Md) / (Md * Md)))
    with (Md * Md * (T * T + 2 * Mp * T) - q * q * ((Mp + Md) * (Mp + Md) + 2 * T * Md)) in X by (field; lra).
  lra.
Qed.
End Kin.

Lemma inverse_increasing f g : strictly_increasing_from_0 f -> (forall x, 0 <= x -> 0 <= g x /\ f (g x) = x) -> strictly_increasing_from_0 g.
Proof.
  intros Hf Hg x y Hx Hxy. destruct (Hg x Hx) as [Gx Ex]. destruct (Hg y ltac:(lra)) as [Gy Ey].
  destruct (Rlt_le_dec (g x) (g y)) as [?|Hle]; [ assumption | exfalso ].
  destruct (Req_dec (g y) (g x)) as [He|Hne]; [ rewrite He in Ey; lra | ].
  pose proof (Hf (g y) (g x) Gy ltac:(lra)). lra.
Qed.

Lemma kin_props Eb : - (Mn + Mp) < Eb ->
  (forall T, 0 <= T -> com_momentum_of Mp (Mn + Mp + Eb) T (lab_energy_to_com_momentum T Eb)) /\
  inverse_from_0 (fun T => lab_energy_to_com_momentum T Eb) (fun q => com_momentum_to_lab_energy q Eb) /\
  inverse_from_0 (fun q => com_momentum_to_lab_energy q Eb) (fun T => lab_energy_to_com_momentum T Eb) /\
  strictly_increasing_from_0 (fun T => lab_energy_to_com_momentum T Eb) /\
  strictly_increasing_from_0 (fun q => com_momentum_to_lab_energy q Eb).
Proof.
  intros H. repeat split.
  - apply sqrt_pos.
  - apply com_momentum_physical; assumption.
  - apply sqrt_pos.
  - apply com_to_lab_T; assumption.
  - apply lab_to_com_q; assumption.
  - apply lab_to_com_q; assumption.
  - apply lab_increasing; assumption.
  - apply (inverse_increasing (fun T => lab_energy_to_com_momentum T Eb)); [ apply lab_increasing; assumption | ].
    intros q Hq. apply lab_to_com_q; assumption.
Qed.

Lemma sq_increasing c x y : 0 < c -> 0 <= x -> x < y -> c * (x * x) < c * (y * y).
Proof. intros. apply Rmult_lt_compat_l; [ assumption | nra ]. Qed.

Lemma kin_props2 :
  inverse_from_0 com_energy_to_com_q_momentum com_q_momentum_to_com_energy /\
  inverse_from_0 com_q_momentum_to_com_energy com_energy_to_com_q_momentum /\
  inverse_from_0 com_energy_to_com_p_momentum com_p_momentum_to_com_energy /\
  inverse_from_0 com_p_momentum_to_com_energy com_energy_to_com_p_momentum /\
  strictly_increasing_from_0 com_energy_to_com_q_momentum /\ strictly_increasing_from_0 com_q_momentum_to_com_energy /\
  strictly_increasing_from_0 com_energy_to_com_p_momentum /\ strictly_increasing_from_0 com_p_momentum_to_com_energy.
Proof.
  assert (HM : 0 < MN) by (unfold MN, Mn, Mp; lra).
  assert (Hm : 0 < mu23) by (unfold mu23, Mn, Mp; apply Rdiv_lt_0_compat; lra).
  unfold inverse_from_0, strictly_increasing_from_0, com_energy_to_com_q_momentum, com_q_momentum_to_com_energy,
    com_energy_to_com_p_momentum, com_p_momentum_to_com_energy.
  assert (P1 : forall x, 0 <= x -> 0 <= 3 * x * x / (4 * MN)).
  { intros x Hx. apply Rmult_le_pos; [ nra | left; apply Rinv_0_lt_compat; lra ]. }
  assert (P2 : forall x, 0 <= x -> 0 <= x * x / (2 * mu23)).
  { intros x Hx. apply Rmult_le_pos; [ nra | left; apply Rinv_0_lt_compat; lra ]. }
  assert (P3 : forall x, 0 <= x -> 0 <= 4 * x * MN / 3) by (intros x Hx; assert (0 <= x * MN) by nra; lra).
  assert (P4 : forall x, 0 <= x -> 0 <= 2 * x * mu23) by (intros x Hx; assert (0 <= x * mu23) by nra; lra).
  repeat split.
  - apply sqrt_pos.
  - replace (3 * sqrt (4 * x * MN / 3) * sqrt (4 * x * MN / 3)) with (3 * (sqrt (4 * x * MN / 3) * sqrt (4 * x * MN / 3))) by ring.
    rewrite sqrt_sqrt by auto. field. lra.
  - auto.
  - replace (4 * (3 * x * x / (4 * MN)) * MN / 3) with (x * x) by (field; lra). apply sqrt_square. assumption.
  - apply sqrt_pos.
  - rewrite sqrt_sqrt by auto. field. lra.
  - auto.
  - replace (2 * (x * x / (2 * mu23)) * mu23) with (x * x) by (field; lra). apply sqrt_square. assumption.
  - intros x y Hx Hxy. apply sqrt_lt_1_alt. split; [ auto | ]. assert (x * MN < y * MN) by nra. lra.
  - intros x y Hx Hxy. replace (3 * x * x / (4 * MN)) with (3 / (4 * MN) * (x * x)) by (field; lra).
    replace (3 * y * y / (4 * MN)) with (3 / (4 * MN) * (y * y)) by (field; lra). apply sq_increasing; auto. apply Rdiv_lt_0_compat; lra.
  - intros x y Hx Hxy. apply sqrt_lt_1_alt. split; [ auto | ]. assert (x * mu23 < y * mu23) by nra. lra.
  - intros x y Hx Hxy. replace (x * x / (2 * mu23)) with (/ (2 * mu23) * (x * x)) by (field; lra).
    replace (y * y / (2 * mu23)) with (/ (2 * mu23) * (y * y)) by (field; lra). apply sq_increasing; auto. apply Rinv_0_lt_compat; lra.
Qed.
