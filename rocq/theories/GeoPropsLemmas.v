From Coq Require Import Reals Lra ZifyBool.
From Verif Require Import Common ArrayLib PWModel PWSpec PWPropsLemmas SwpModel SwpProofs GridSpec GridPropsLemmas PermModel PermSpec PermPropsLemmas
  PermValue KernelModel KernelProofs PotentialPropsLemmas GeoModel GeoSpec GeoProofs GeoProofs2 GeoAll.
Open Scope Z_scope.

(* ---------- cosines ---------- *)
Lemma cosines f x : (0 < f < PI / 2)%R -> (-1 < x < 1)%R ->
  costheta1 (sin f) (cos f) x = pair_cos (sin f) (cos f) x /\ costheta2 (sin f) (cos f) x = spectator_cos (sin f) (cos f) x.
Proof.
  intros Hf Hx.
  assert (Hs : (0 < sin f)%R) by (apply sin_gt_0; lra). assert (Hc : (0 < cos f)%R) by (apply cos_gt_0; lra).
  destruct (kinematics (sin f) (cos f) x) as (_ & _ & _ & _ & _ & _ & _ & K1 & K2 & K3); try lra.
  destruct (K3 Hc Hx) as [P1 P2]. destruct (K1 ltac:(lra)) as [_ ->]. destruct (K2 ltac:(lra)) as [_ ->].
  cbn [fst snd]. unfold pair_cos, spectator_cos, cosine.
  split; match goal with |- (?a / sqrt ?b = ?c / sqrt ?d)%R => replace b with d by field; replace a with c by field; reflexivity end.
Qed.

(* ---------- capacity of the 6j table ---------- *)
Lemma sixj_fits n : 0 <= n <= 17 -> exists sz, sixj_size (2 * n) = Ok sz /\ sz = (2 * n + 1) ^ 6.
Proof.
  intros H. unfold sixj_size. assert (E : i32 ((2*n+1)*(2*n+1)*(2*n+1)*(2*n+1)*(2*n+1)*(2*n+1)) = (2*n+1)^6).
  { replace ((2*n+1)*(2*n+1)*(2*n+1)*(2*n+1)*(2*n+1)*(2*n+1)) with ((2*n+1)^6) by ring. apply i32_id.
    assert (0 <= (2*n+1)^6 <= 35^6) by (split; [ apply Z.pow_nonneg; lia | apply Z.pow_le_mono_l; lia ]). lia. }
  rewrite E. assert (0 <= (2*n+1)^6) by (apply Z.pow_nonneg; lia).
  destruct (Z.ltb_spec ((2*n+1)^6) 0); [ lia | ].
  replace ((2*n+1)*(2*n+1)*(2*n+1)*(2*n+1)*(2*n+1)*(2*n+1)) with ((2*n+1)^6) by ring. rewrite Z.eqb_refl. eauto.
Qed.
Lemma sixj_not_fits n : 18 <= n -> sixj_size (2 * n) = Err \/ sixj_size (2 * n) = UB.
Proof.
  intros H. unfold sixj_size. replace ((2*n+1)*(2*n+1)*(2*n+1)*(2*n+1)*(2*n+1)*(2*n+1)) with ((2*n+1)^6) by ring.
  assert (37^6 <= (2*n+1)^6) by (apply Z.pow_le_mono_l; lia).
  pose proof (i32_range ((2*n+1)^6)). destruct (i32 ((2*n+1)^6) <? 0); [ tauto | ].
  destruct (Z.eqb_spec (i32 ((2*n+1)^6)) ((2*n+1)^6)); [ | tauto ]. lia.
Qed.
Lemma max_of_le f l b : 0 <= b -> (forall s, In s l -> f s <= b) -> max_of f l <= b.
Proof.
  intros Hb. unfold max_of. generalize Hb. generalize 0 as m.
  induction l as [|a l IH]; intros m Hm H; cbn [fold_left]; [ exact Hm | ].
  apply IH; [ | intros s Hs; apply H; right; exact Hs ]. specialize (H a (or_introl eq_refl)). destruct (m <? f a); lia.
Qed.
Lemma orbital_bounds J_2N_max s : physical s -> J_2N s <= J_2N_max -> 0 <= L_2N s <= J_2N_max + 1 /\ 0 <= L_1N s <= J_2N_max + (two_J_3N s + 1) / 2.
Proof.
  intros [S T J j J3 T3 _ _] H. unfold couples in *.
  pose proof (Z.div_mod (two_J_3N s + 1) 2 ltac:(lia)). pose proof (Z.mod_pos_bound (two_J_3N s + 1) 2 ltac:(lia)). lia.
Qed.
Lemma lmax_bound J_2N_max J states : 0 <= J_2N_max -> 1 <= J -> (forall s, In s states -> physical s /\ two_J_3N s = J /\ J_2N s <= J_2N_max) ->
  geo_lmax states <= J_2N_max + (J + 1) / 2 + 3.
Proof.
  intros H0 HJ H. unfold geo_lmax. pose proof (Z.div_mod (J + 1) 2 ltac:(lia)). pose proof (Z.mod_pos_bound (J + 1) 2 ltac:(lia)).
  assert (max_l3 states <= J_2N_max + (J + 1) / 2).
  { apply max_of_le; [ lia | ]. intros s Hs. destruct (H s Hs) as (P & E & B). pose proof (orbital_bounds J_2N_max s P B). rewrite E in *. lia. }
  assert (max_L12 states <= J_2N_max + (J + 1) / 2).
  { apply max_of_le; [ lia | ]. intros s Hs. destruct (H s Hs) as (P & E & B). pose proof (orbital_bounds J_2N_max s P B). lia. }
  lia.
Qed.
Lemma lmax_ge states : 3 <= geo_lmax states.
Proof. unfold geo_lmax. pose proof (proj1 (max_of_ge L_2N states)). pose proof (proj1 (max_of_ge L_1N states)). unfold max_l3, max_L12. lia. Qed.

(* ---------- the geometric function ---------- *)
Section Geometric.
Variable sixj : Z -> Z -> Z -> Z -> Z -> Z -> R.
Variable ninej : Z -> Z -> Z -> Z -> Z -> Z -> Z -> Z -> Z -> R.
Variable threej : Z -> Z -> Z -> Z -> Z -> Z -> R.
Variable sphP : Z -> Z -> R -> R.
Variable legblock : Z -> R -> list R.
Variable legsize : Z -> Z.

Lemma geo_thm states J Np Nq Nphi phi xs k :
  threej_rule threej -> ninej_rule ninej -> legendre_rule sphP legblock legsize ->
  states <> [] -> (forall s, In s states -> physical s /\ two_J_3N s = J) ->
  length phi = (Nq * Np * Nphi)%nat -> mesh_in 0 (PI / 2) phi -> mesh_in (-1) 1 xs ->
  allocated legsize states Np Nq Nphi (length xs) k ->
  exists t, geo_tables sixj ninej threej legblock legsize states Np Nq Nphi phi xs k = Ok t /\
  forall qp pp ap a r c out, (qp < Nq)%nat -> (pp < Np)%nat -> nth_error states ap = Some r -> nth_error states a = Some c ->
    length out = (Nphi * length xs)%nat ->
    exists G, gtilde_subarray legsize states t Np Nphi xs qp pp (zn ap) (zn a) out = Ok G /\ length G = (Nphi * length xs)%nat /\
      forall j i, (j < Nphi)%nat -> (i < length xs)%nat ->
        let f := nth ((qp * Np + pp) * Nphi + j) phi 0%R in let x := nth i xs 0%R in
        nth (j * length xs + i) G 0%R =
        geometric sixj ninej threej sphP r c x (pair_cos (sin f) (cos f) x) (spectator_cos (sin f) (cos f) x).
Proof.
  intros H3 H9 HL Hst Hphys Lphi Mphi Mx (A1 & A2 & A3 & A4 & A5).
  destruct (geo_values sixj ninej threej sphP legblock legsize H3 H9 HL states J Hst Hphys Np Nq Nphi phi xs k _ A1 Lphi) as (t & Et & W);
    try assumption; try reflexivity; try lia.
  exists t. split; [ exact Et | ]. intros qp pp ap a r c out Hqp Hpp Hr Hc Lout.
  assert (Bap : (ap < length states)%nat) by (apply nth_error_Some; congruence).
  assert (Ba : (a < length states)%nat) by (apply nth_error_Some; congruence).
  destruct (W qp pp (zn ap) (zn a) out Hqp Hpp) as (G & EG & LG & V); try (unfold zn; lia); try assumption.
  exists G. split; [ exact EG | ]. split; [ exact LG | ]. intros j i Hj Hi f x. rewrite (V j i Hj Hi). fold f. fold x.
  destruct (cosines f x) as [-> ->].
  { apply Mphi, nth_In. rewrite Lphi. apply rm_lt; [ apply rm_lt | ]; assumption. }
  { apply Mx, nth_In, Hi. }
  unfold st, zn. rewrite !Nat2Z.id. rewrite (nth_error_nth _ _ _ Hr), (nth_error_nth _ _ _ Hc). reflexivity.
Qed.

Lemma geometric_isospin r c x c1 c2 : two_T_3N r <> two_T_3N c -> geometric sixj ninej threej sphP r c x c1 c2 = 0%R.
Proof.
  intros H. unfold geometric.
  rewrite (zsum_zero 0). ring. intros L _. unfold recoupling. rewrite (proj2 (Z.eqb_neq _ _) H). ring.
Qed.
End Geometric.

Lemma channel_ok g Jm mx iso ss c states : 1 <= mx -> Z.Odd mx -> construct_symmetric_pw_states_g g Jm mx iso = Ok ss ->
  0 <= c < ss_N_chn ss -> channel_slice ss c = Ok states ->
  states <> [] /\ forall s, In s states -> physical s /\ two_J_3N s = fst (nth_chn c) /\ J_2N s <= Jm.
Proof.
  intros Hm Ho Hc Hr Hs. destruct (chn_table g Jm mx iso ss Hm Ho Hc) as (_ & _ & _ & _ & _ & T & _).
  destruct (T c Hr) as (l & El & Nl & Il). rewrite Hs in El. injection El as <-. split; [ exact Nl | ]. intros s Is.
  apply Il in Is. destruct Is as [Is Ec]. destruct (PWPropsLemmas.sound g Jm mx iso ss Hc s Is) as [P M].
  split; [ exact P | ]. split; [ rewrite <- Ec; reflexivity | apply M ].
Qed.
Lemma nonneg_Jm g Jm mx iso ss : construct_symmetric_pw_states_g g Jm mx iso = Ok ss -> 0 <= Jm.
Proof. intros H. apply PWChnProofs.construct_g_inv in H. tauto. Qed.

Lemma capacity_ok g Jm mx iso ss c states : 1 <= mx -> Z.Odd mx -> construct_symmetric_pw_states_g g Jm mx iso = Ok ss ->
  0 <= c < ss_N_chn ss -> channel_slice ss c = Ok states -> Jm + (fst (nth_chn c) + 1) / 2 <= 14 ->
  exists sz, sixj_size (2 * geo_lmax states) = Ok sz /\ sz = (2 * geo_lmax states + 1) ^ 6.
Proof.
  intros Hm Ho Hc Hr Hs Hb. destruct (channel_ok g Jm mx iso ss c states Hm Ho Hc Hr Hs) as [_ P].
  apply sixj_fits. pose proof (lmax_ge states). split; [ lia | ].
  pose proof (lmax_bound Jm (fst (nth_chn c)) states (nonneg_Jm _ _ _ _ _ Hc)) as B.
  assert (0 <= c / 2) by (apply Z.div_pos; lia). cbn [nth_chn fst] in *. specialize (B ltac:(lia) P). lia.
Qed.

(* an element with a geometric function that is zero on the mesh *)
Lemma slice_sin {A} (f : A -> R) (l : list A) off n : map f (firstn n (skipn off l)) = firstn n (skipn off (map f l)).
Proof. rewrite <- firstn_map, skipn_map. reflexivity. Qed.
Lemma firstn_nth_error {A} (l : list A) n i t : nth_error (firstn n l) i = Some t -> nth_error l i = Some t.
Proof.
  revert l i. induction n as [|n IH]; intros [|a l] [|i] H; cbn in *; try discriminate; try exact H. apply IH. exact H.
Qed.
Lemma in_slice l off n t : In t (slice l off n) -> In t l.
Proof.
  intros H. unfold slice in H. apply In_nth_error in H. destruct H as [i H]. apply firstn_nth_error in H.
  rewrite <- (firstn_skipn off l). apply in_or_app. right. apply (nth_error_In _ _ H).
Qed.
Lemma nth_firstn' (l : list R) n j : (j < n)%nat -> nth j (firstn n l) 0%R = nth j l 0%R.
Proof.
  revert l j. induction n as [|n IH]; intros l j H; [ lia | ]. destruct l as [|a l]; [ reflexivity | ]. destruct j as [|j]; [ reflexivity | ].
  cbn. apply IH. lia.
Qed.
Lemma nth_skipn' (l : list R) off j : nth j (skipn off l) 0%R = nth (off + j) l 0%R.
Proof.
  revert l. induction off as [|off IH]; intros l; [ reflexivity | ]. destruct l as [|a l]; [ destruct j; reflexivity | ]. cbn [skipn plus nth]. apply IH.
Qed.
Lemma nth_slice l off n j : (j < n)%nat -> nth j (slice l off n) 0%R = nth (off + j) l 0%R.
Proof. intros H. unfold slice. rewrite nth_firstn' by exact H. apply nth_skipn'. Qed.
Lemma length_slice l off n : (off + n <= length l)%nat -> length (slice l off n) = n.
Proof. intros H. unfold slice. rewrite firstn_length, skipn_length. lia. Qed.

Section Element.
Variable sixj : Z -> Z -> Z -> Z -> Z -> Z -> R.
Variable ninej : Z -> Z -> Z -> Z -> Z -> Z -> Z -> Z -> Z -> R.
Variable threej : Z -> Z -> Z -> Z -> Z -> Z -> R.
Variable sphP : Z -> Z -> R -> R.
Variable legblock : Z -> R -> list R.
Variable legsize : Z -> Z.
Lemma geo_element g Jm mx iso ss cn states roots Np Nq pb qb phi wphi xs wxs k :
  let Nphi := length roots in
  threej_rule threej -> ninej_rule ninej -> legendre_rule sphP legblock legsize ->
  1 <= mx -> Z.Odd mx -> construct_symmetric_pw_states_g g Jm mx iso = Ok ss ->
  0 <= cn < ss_N_chn ss -> channel_slice ss cn = Ok states ->
  partition_from_zero Np pb -> partition_from_zero Nq qb -> mesh_in (-1) 1 xs -> mesh_in 0 (PI / 2) phi ->
  length phi = (Nq * Np * Nphi)%nat -> length wphi = (Nq * Np * Nphi)%nat -> length wxs = length xs ->
  allocated legsize states Np Nq Nphi (length xs) k ->
  exists t, geo_tables sixj ninej threej legblock legsize states Np Nq Nphi phi xs k = Ok t /\
  forall qp pp q p ap a r c out, (qp < Nq)%nat -> (pp < Np)%nat -> (q < Nq)%nat -> (p < Np)%nat ->
    nth_error states ap = Some r -> nth_error states a = Some c -> length out = (Nphi * length xs)%nat ->
    exists G (v : nat -> nat -> R), gtilde_subarray legsize states t Np Nphi xs qp pp (zn ap) (zn a) out = Ok G /\
      let angle j := nth ((qp * Np + pp) * Nphi + j) phi 0%R in
      let weight j := nth ((qp * Np + pp) * Nphi + j) wphi 0%R in
      let x i := nth i xs 0%R in
      (forall j i, (j < Nphi)%nat -> (i < length xs)%nat ->
         direction_integral (fun a b => pi1_tilde a b (x i)) (fun a b => pi2_tilde a b (x i)) pb qb pp qp p q (angle j) (v j i)) /\
      P123_element roots G p q pp qp pb qb xs wxs
        (slice (map sin phi) ((qp * Np + pp) * Nphi) Nphi) (slice (map cos phi) ((qp * Np + pp) * Nphi) Nphi) (slice wphi ((qp * Np + pp) * Nphi) Nphi) =
      Ok (GridSpec.sum (fun i => GridSpec.sum (fun j => nth i wxs 0 * weight j *
             geometric sixj ninej threej sphP r c (x i) (pair_cos (sin (angle j)) (cos (angle j)) (x i)) (spectator_cos (sin (angle j)) (cos (angle j)) (x i))
             * v j i) Nphi) (length xs)
          / (sqrt (upper qb q - lower qb q) * sqrt (upper pb p - lower pb p)
             * sqrt (upper qb qp - lower qb qp) * sqrt (upper pb pp - lower pb pp)))%R.
Proof.
  intros Nphi H3 H9 HL Hm Ho Hc Hr Hs Hp Hq Mx Mphi Lphi Lw Lwx HA.
  destruct (channel_ok g Jm mx iso ss cn states Hm Ho Hc Hr Hs) as [Nl P].
  destruct (geo_thm sixj ninej threej sphP legblock legsize states (fst (nth_chn cn)) Np Nq Nphi phi xs k H3 H9 HL Nl) as (t & Et & W); try assumption.
  { intros s Is. destruct (P s Is) as (? & ? & _). tauto. }
  exists t. split; [ exact Et | ]. intros qp pp q p ap a r c out Hqp Hpp Hq' Hp' Hrr Hcc Lout.
  destruct (W qp pp ap a r c out Hqp Hpp Hrr Hcc Lout) as (G & EG & LG & V).
  assert (Hoff : ((qp * Np + pp) * Nphi + Nphi <= Nq * Np * Nphi)%nat) by (assert (qp * Np + pp + 1 <= Nq * Np)%nat by nia; nia).
  destruct (element_value roots Np Nq pb qb xs wxs (slice phi ((qp * Np + pp) * Nphi) Nphi) (slice wphi ((qp * Np + pp) * Nphi) Nphi) G p q pp qp)
    as (v & Dv & Ev); try assumption.
  { intros y Hy. apply in_slice in Hy. apply Mphi, Hy. }
  { apply length_slice. rewrite Lphi. exact Hoff. }
  { apply length_slice. rewrite Lw. exact Hoff. }
  exists G, v. split; [ exact EG | ]. cbv zeta. split.
  - intros j i Hj Hi. specialize (Dv j i Hj Hi). rewrite nth_slice in Dv by exact Hj. exact Dv.
  - unfold slice in Ev |- *. rewrite <- !slice_sin. rewrite Ev. f_equal. f_equal. apply sum_ext. intros i Hi. apply sum_ext. intros j Hj.
    fold (slice wphi ((qp * Np + pp) * Nphi) Nphi). rewrite nth_slice by exact Hj. rewrite (V j i Hj Hi). reflexivity.
Qed.

Lemma isospin_element g Jm mx iso ss cn states roots Np Nq pb qb phi wphi xs wxs k :
  let Nphi := length roots in
  threej_rule threej -> ninej_rule ninej -> legendre_rule sphP legblock legsize ->
  1 <= mx -> Z.Odd mx -> construct_symmetric_pw_states_g g Jm mx iso = Ok ss ->
  0 <= cn < ss_N_chn ss -> channel_slice ss cn = Ok states ->
  partition_from_zero Np pb -> partition_from_zero Nq qb -> mesh_in (-1) 1 xs -> mesh_in 0 (PI / 2) phi ->
  length phi = (Nq * Np * Nphi)%nat -> length wphi = (Nq * Np * Nphi)%nat -> length wxs = length xs ->
  allocated legsize states Np Nq Nphi (length xs) k ->
  exists t, geo_tables sixj ninej threej legblock legsize states Np Nq Nphi phi xs k = Ok t /\
  forall qp pp q p ap a r c out, (qp < Nq)%nat -> (pp < Np)%nat -> (q < Nq)%nat -> (p < Np)%nat ->
    nth_error states ap = Some r -> nth_error states a = Some c -> length out = (Nphi * length xs)%nat ->
    two_T_3N r <> two_T_3N c ->
    (do G <- gtilde_subarray legsize states t Np Nphi xs qp pp (zn ap) (zn a) out;
     P123_element roots G p q pp qp pb qb xs wxs
        (slice (map sin phi) ((qp * Np + pp) * Nphi) Nphi) (slice (map cos phi) ((qp * Np + pp) * Nphi) Nphi) (slice wphi ((qp * Np + pp) * Nphi) Nphi))
    = Ok 0%R.
Proof.
  intros Nphi H3 H9 HL Hm Ho Hc Hr Hs Hp Hq Mx Mphi Lphi Lw Lwx HA.
  destruct (geo_element g Jm mx iso ss cn states roots Np Nq pb qb phi wphi xs wxs k) as (t & Et & W); try assumption.
  exists t. split; [ exact Et | ]. intros qp pp q p ap a r c out Hqp Hpp Hq' Hp' Hrr Hcc Lout HT.
  destruct (W qp pp q p ap a r c out) as (G & v & EG & _ & EP); try assumption. unfold Nphi. rewrite EG. cbn [obind]. rewrite EP. f_equal.
  rewrite sum_zero; [ unfold Rdiv; ring | ]. intros i Hi. apply sum_zero. intros j Hj. rewrite geometric_isospin by exact HT. ring.
Qed.
End Element.
