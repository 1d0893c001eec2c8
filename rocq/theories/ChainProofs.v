(* Lemmas for C91. *)
From Coq Require Import Reals Lra Lia ZifyBool.
From Verif Require Import Common ArrayLib PWModel PWSpec PWProofs PWChnProofs PWPropsLemmas SwpModel GridSpec GridPropsLemmas KernelModel KernelSpec PotentialModel PotentialSpec
  PotentialPropsLemmas SwpWholeModel SwpWholeSpec SpectralSpec SpectralFinal.
Open Scope nat_scope.

(* a partial wave of the 1/2 channels that lives in channel i, block b *)
Definition wave (L S J T3 : Z) : pw :=
  let T := (if Z.even (L + S) then 1 else 0)%Z in
  mkpw L S J T J (2 * J + 1) 1 T3 (if Z.even (L + J) then 1 else -1)%Z.
Definition rep (iso cm : bool) (i b : nat) : pw :=
  let z := Z.of_nat i in
  if cm then
    if iso && (i =? 0) then wave 0 0 0 (if (b =? 0)%nat then 1 else 3)%Z
    else let J := if iso then z else (z + 1)%Z in wave (if (b =? 0)%nat then J - 1 else J + 1)%Z 1 J 1
  else let k := if iso then (z + 1)%Z else z in
    let J := (k / 2)%Z in
    if Z.even k then wave J 0 J 1 else wave (if (J =? 0)%Z then 1 else J)%Z 1 J 1.

Lemma wave_phys L S J T3 : (0 <= S <= 1 -> 0 <= L -> 0 <= J -> Z.abs (L - S) <= J <= L + S -> T3 = 1 \/ (T3 = 3 /\ L = 0 /\ S = 0) -> physical (wave L S J T3))%Z.
Proof.
  intros HS HL HJ Ht HT. constructor; unfold wave; cbn [S_2N T_2N L_2N J_2N L_1N two_J_1N two_J_3N two_T_3N P_3N]; unfold couples.
  - repeat split; try lia. exists (1 + S)%Z. lia.
  - destruct (Z.even (L + S)) eqn:E; repeat split; try lia; [ exists 2%Z | exists 1%Z ]; lia.
  - repeat split; try lia. exists (L + S + J)%Z. lia.
  - repeat split; try lia. exists (2 * J + 1)%Z. lia.
  - repeat split; try lia. exists (2 * J + 1)%Z. lia.
  - destruct HT as [->|(-> & -> & ->)]; [ | cbn; repeat split; try lia; exists 3%Z; lia ].
    destruct (Z.even (L + S)) eqn:E; repeat split; try lia; [ exists 2%Z | exists 1%Z ]; lia.
  - destruct (Z.even (L + S)) eqn:E; rewrite <- Z.odd_spec; rewrite !Z.odd_add, ?Z.even_add in *; rewrite <- ?Z.negb_odd in *; destruct (Z.odd L), (Z.odd S); cbn in *; congruence.
  - reflexivity.
Qed.


Lemma rep_ok iso Jm cm i b : (0 <= Jm)%Z -> i < num_channels iso Jm cm -> b < 2 ->
  (physical (rep iso cm i b) /\ in_model_space Jm 1 iso (rep iso cm i b)) /\ matrix_of true iso (rep iso cm i b) = (cm, Ok (Z.of_nat i)) /\
  (cm = true -> block (rep iso cm i b) = b).
Proof.
  intros HJ Hi Hb. unfold num_channels, num_2N_coup_states, num_2N_unco_states in Hi. unfold rep.
  assert (MO : forall L S J T3, matrix_of true iso (wave L S J T3) =
     let cm := negb (L =? J)%Z && negb (J =? 0)%Z || ((S =? 0)%Z && (J =? 0)%Z && (L =? 0)%Z && iso) in
     (cm, Ok (if cm then (if iso then (if (S =? 0)%Z && (J =? 0)%Z && (L =? 0)%Z then 0 else J) else J - 1)%Z else (2 * J + S - (if iso then 1 else 0))%Z))).
  { intros L S J T3. unfold matrix_of, coupled_matrix, coupled_via_L_2N, coupled_via_T_3N, unique_2N_idx, wave; cbn [J_2N L_2N S_2N T_2N].
    rewrite Z.eqb_refl. cbn [negb andb orb]. rewrite andb_false_r. cbv zeta. f_equal. f_equal.
    destruct (negb (L =? J)%Z && negb (J =? 0)%Z || ((S =? 0)%Z && (J =? 0)%Z && (L =? 0)%Z && iso)); [ | reflexivity ].
    destruct iso; [ | reflexivity ]. destruct (Z.eqb_spec S 0), (Z.eqb_spec J 0), (Z.eqb_spec L 0); cbn [andb]; try lia.
    subst. reflexivity. }
  assert (MS : forall L S J T3, (J <= Jm)%Z -> (T3 = 1 \/ (T3 = 3 /\ iso = true /\ L = 0 /\ S = 0 /\ J = 0))%Z -> in_model_space Jm 1 iso (wave L S J T3)).
  { intros L S J T3 H1 H2. constructor; unfold wave; cbn [J_2N two_J_3N two_T_3N L_2N S_2N]; [ lia | lia | intros ->; destruct H2 as [H2 | (_ & H2)]; [ discriminate | exact H2 ] ]. }
  assert (BL : forall L S J T3, (0 <= S <= 1 -> 0 <= J -> block (wave L S J T3) = if (S =? 0) && (J =? 0) then (if T3 =? 3 then 1%nat else 0%nat) else if J <? L then 1%nat else 0%nat)%Z).
  { intros L S J T3 _ _. reflexivity. }
  destruct cm.
  - destruct (iso && (i =? 0)) eqn:E0.
    + apply andb_prop in E0. destruct E0 as [-> E0]. apply Nat.eqb_eq in E0. subst i.
      split; [ split | split ].
      * apply wave_phys; destruct (b =? 0); lia.
      * apply MS; [ lia | destruct (b =? 0); auto 10 ].
      * rewrite MO. reflexivity.
      * intros _. rewrite BL by lia. cbn [Z.eqb andb]. destruct b as [|[|]]; [ reflexivity | reflexivity | lia ].
    + set (J := if iso then Z.of_nat i else (Z.of_nat i + 1)%Z). set (L := (if (b =? 0)%nat then J - 1 else J + 1)%Z).
      assert (HJ1 : (1 <= J <= Jm)%Z) by (unfold J; destruct iso; cbn [andb] in E0; [ apply Nat.eqb_neq in E0 | ]; lia).
      assert (HL : (L = J - 1 \/ L = J + 1)%Z) by (unfold L; destruct (b =? 0); auto).
      split; [ split | split ].
      * apply wave_phys; lia.
      * apply MS; [ lia | auto ].
      * rewrite MO. cbv zeta. assert (E1 : (L =? J)%Z = false) by lia. assert (E2 : (J =? 0)%Z = false) by lia. rewrite E1, E2. cbn [negb andb orb].
        f_equal. f_equal. unfold J. destruct iso; cbn [Z.eqb andb]; lia.
      * intros _. rewrite BL by lia. cbn [Z.eqb andb]. unfold L. destruct b as [|[|]]; [ | | lia ]; cbn [Nat.eqb].
        -- assert (E1 : (J <? J - 1)%Z = false) by lia. rewrite E1. reflexivity.
        -- assert (E1 : (J <? J + 1)%Z = true) by lia. rewrite E1. reflexivity.
  - set (k := if iso then (Z.of_nat i + 1)%Z else Z.of_nat i). set (J := (k / 2)%Z).
    assert (Hk : (0 <= k < 2 * (Jm + 1))%Z /\ (iso = true -> 1 <= k)%Z) by (unfold k; destruct iso; split; intros; lia).
    assert (Ek : (k = 2 * J + (if Z.even k then 0 else 1))%Z).
    { unfold J. rewrite (Z.div_mod k 2) at 1 by lia. rewrite Zmod_even. destruct (Z.even k); lia. }
    destruct (Z.even k).
    + assert (HJ1 : (0 <= J <= Jm)%Z) by lia. split; [ split | split; [ | discriminate ] ].
      * apply wave_phys; lia.
      * apply MS; [ lia | auto ].
      * rewrite MO. cbv zeta. rewrite Z.eqb_refl. cbn [negb andb orb].
        assert (E2 : ((J =? 0)%Z && (J =? 0)%Z && iso = false)) by (destruct iso; [ assert ((J =? 0)%Z = false) as -> by lia; reflexivity | apply andb_false_r ]).
        cbn [Z.eqb andb]. rewrite E2. f_equal. f_equal. unfold k in Ek. destruct iso; lia.
    + assert (HJ1 : (0 <= J <= Jm)%Z) by lia. split; [ split | split; [ | discriminate ] ].
      * apply wave_phys; destruct (Z.eqb_spec J 0); lia.
      * apply MS; [ lia | auto ].
      * rewrite MO. cbv zeta. cbn [Z.eqb andb orb].
        destruct (Z.eqb_spec J 0) as [E1|E1].
        -- rewrite E1. cbn [Z.eqb negb andb orb]. f_equal. f_equal. unfold k in Ek. destruct iso; lia.
        -- rewrite Z.eqb_refl. cbn [negb andb orb]. f_equal. f_equal. unfold k in Ek. destruct iso; lia.
Qed.

From Verif Require Import ChainSpec.
Lemma hermitian_of pot states s : hermitian_model pot states -> In s states -> hermitian pot s.
Proof.
  intros H Hs Tz qi qo cpl. destruct (H s Tz qi qo cpl Hs) as (V & W & E1 & E2 & _ & _ & Hk & H3 & H4). exists V, W. split; [ exact E1 | ]. split; [ exact E2 | ].
  unfold InteractionProofs.swap6, at_. repeat split; try (apply Hk; lia); assumption.
Qed.
Lemma total_of pot states : hermitian_model pot states -> pot_total pot states.
Proof. intros H s Tz x y cpl Hs _. destruct (H s Tz x y cpl Hs) as (V & W & E1 & _ & L & _). exists V. auto. Qed.

Section Pot.
Variables (gg Jm mx : Z) (iso mid : bool) (ss : statespace) (pot : potmodel) (junk : R * R) (vg : vgrid).
Hypothesis Hmx : (1 <= mx)%Z.
Hypothesis Hss : construct_symmetric_pw_states_g gg Jm mx iso = Ok ss.
Hypothesis Hmid : mid = false \/ iso = false.
Hypothesis Hpot : hermitian_model pot (ss_states ss).
Hypothesis Hg : vgrid_ok mid vg.
Notation Np := (vg_Np vg).

Lemma in_table s : physical s /\ in_model_space Jm 1 iso s -> In s (ss_states ss).
Proof.
  intros [Hp Hs]. destruct (construct_g_inv _ _ _ _ _ Hss) as [_ ->]. apply in_tables. split; [ exact Hp | ].
  destruct Hs as [H1 H2 H3]. constructor; [ exact H1 | lia | exact H3 ].
Qed.

Lemma potential_all Vu Vc :
  length Vu = Np * Np * Z.to_nat (num_2N_unco_states true iso Jm) -> length Vc = Np * Np * 4 * Z.to_nat (num_2N_coup_states true iso Jm) ->
  exists V, potential_matrices true iso mid Jm pot junk vg (ss_states ss) Vu Vc = Ok V /\
    (forall cm, length (pick cm V) = dim2 cm Np * dim2 cm Np * num_channels iso Jm cm) /\ symmetric_potential iso Jm Np V /\
    (forall r c i j, In r (ss_states ss) -> In c (ss_states ss) -> same_2N_channel true r c -> i < Np -> j < Np ->
      entry true iso Np V r c i j = Some (target mid pot vg r c i j)) /\
    forall cm i x y, i < num_channels iso Jm cm -> x < dim2 cm Np -> y < dim2 cm Np ->
      nth (i * dim2 cm Np * dim2 cm Np + x * dim2 cm Np + y) (pick cm V) 0%R =
      target mid pot vg (rep iso cm i (x / Np)) (rep iso cm i (y / Np)) (x mod Np) (y mod Np).
Proof.
  intros LU LC.
  assert (HJ : (0 <= Jm)%Z) by (destruct (construct_g_inv _ _ _ _ _ Hss); assumption).
  destruct (matrices_target gg Jm mx iso ss true mid pot junk vg Vu Vc Hss (or_introl eq_refl) (total_of _ _ Hpot) Hg) as (V & E & L1 & L2 & H');
    [ rewrite LU; lia | rewrite LC; lia | ].
  assert (H : forall r c, In r (ss_states ss) -> In c (ss_states ss) -> same_2N_channel true r c -> forall i j, i < Np -> j < Np ->
     entry true iso Np V r c i j = Some (target mid pot vg r c i j)).
  { intros r c Hr Hc Hch i j Hi Hj. apply H'; try assumption. destruct Hmid as [|]; auto. }
  clear H'.
  exists V. split; [ exact E | ]. split; [ | split; [ | split ] ].
  - intros [|]; unfold pick, dim2, num_channels; [ rewrite L2, LC | rewrite L1, LU ]; lia.
  - intros cm i x y Hi Hx Hy.
    assert (Hph := tables_ok gg Jm mx iso ss Hss).
    destruct cm; unfold pick, dim2 in *.
    + assert (Bx : x / Np < 2) by (apply Nat.div_lt_upper_bound; lia). assert (By : y / Np < 2) by (apply Nat.div_lt_upper_bound; lia).
      assert (Mx : x mod Np < Np) by (apply Nat.mod_upper_bound; lia). assert (My : y mod Np < Np) by (apply Nat.mod_upper_bound; lia).
      destruct (rep_ok iso Jm true i (x / Np) HJ Hi Bx) as (Tr & Mr & Br). destruct (rep_ok iso Jm true i (y / Np) HJ Hi By) as (Tc & Mc & Bc).
      assert (Sm : same_2N_channel true (rep iso true i (x / Np)) (rep iso true i (y / Np))).
      { apply (proj1 (proj1 (numbering_tensor iso Jm _ _ (proj1 Tr) (proj1 Tc) (ms_J _ _ _ _ (proj2 Tr))))); congruence. }
      assert (Sm' : same_2N_channel true (rep iso true i (y / Np)) (rep iso true i (x / Np))).
      { apply (proj1 (proj1 (numbering_tensor iso Jm _ _ (proj1 Tc) (proj1 Tr) (ms_J _ _ _ _ (proj2 Tc))))); congruence. }
      assert (Ir := in_table _ Tr). assert (Ic := in_table _ Tc).
      assert (H1 := H _ _ Ir Ic Sm _ _ Mx My). assert (H2 := H _ _ Ic Ir Sm' _ _ My Mx).
      rewrite (target_swap true mid pot vg _ _ _ _ (proj1 Tr) (proj1 Tc) Sm (hermitian_of _ _ _ Hpot Ir)) in H1.
      unfold entry in H1, H2. rewrite Mr in H1. rewrite Mc in H2. rewrite Br, Bc in H1, H2 by reflexivity. rewrite Nat2Z.id in *.
      unfold coup_addr in H1, H2. 
      assert (Ex : x / Np * Np + x mod Np = x) by (rewrite (Nat.div_mod x Np) at 3 by lia; lia).
      assert (Ey : y / Np * Np + y mod Np = y) by (rewrite (Nat.div_mod y Np) at 3 by lia; lia).
      rewrite Ex, Ey in H1, H2.
      apply (nth_error_nth _ _ 0%R) in H1. apply (nth_error_nth _ _ 0%R) in H2.
      replace (i * (2 * Np) * (2 * Np) + x * (2 * Np) + y) with (i * (2 * Np * (2 * Np)) + x * (2 * Np) + y) by lia.
      replace (i * (2 * Np) * (2 * Np) + y * (2 * Np) + x) with (i * (2 * Np * (2 * Np)) + y * (2 * Np) + x) by lia.
      congruence.
    + destruct (rep_ok iso Jm false i 0 HJ Hi ltac:(lia)) as (Tr & Mr & _).
      assert (Sm : same_2N_channel true (rep iso false i 0) (rep iso false i 0)).
      { apply (proj1 (proj1 (numbering_tensor iso Jm _ _ (proj1 Tr) (proj1 Tr) (ms_J _ _ _ _ (proj2 Tr))))); congruence. }
      assert (Ir := in_table _ Tr).
      assert (H1 := H _ _ Ir Ir Sm _ _ Hx Hy). assert (H2 := H _ _ Ir Ir Sm _ _ Hy Hx).
      rewrite (target_swap true mid pot vg _ _ _ _ (proj1 Tr) (proj1 Tr) Sm (hermitian_of _ _ _ Hpot Ir)) in H1.
      unfold entry in H1, H2. rewrite Mr in H1, H2. rewrite Nat2Z.id in *. unfold unco_addr in H1, H2.
      apply (nth_error_nth _ _ 0%R) in H1. apply (nth_error_nth _ _ 0%R) in H2.
      replace (i * Np * Np + x * Np + y) with (i * (Np * Np) + x * Np + y) by lia.
      replace (i * Np * Np + y * Np + x) with (i * (Np * Np) + y * Np + x) by lia.
      congruence.
  - intros r c i j Hr Hc Hch Hi Hj. exact (H r c Hr Hc Hch i j Hi Hj).
  - intros cm i x y Hi Hx Hy. assert (Np0 : 0 < Np) by (unfold dim2 in Hx; destruct cm; lia).
    assert (Bx : x / Np < 2) by (apply Nat.div_lt_upper_bound; unfold dim2 in Hx; destruct cm; lia).
    assert (By : y / Np < 2) by (apply Nat.div_lt_upper_bound; unfold dim2 in Hy; destruct cm; lia).
    assert (Mx : x mod Np < Np) by (apply Nat.mod_upper_bound; lia). assert (My : y mod Np < Np) by (apply Nat.mod_upper_bound; lia).
    destruct (rep_ok iso Jm cm i (x / Np) HJ Hi Bx) as (Tr & Mr & Br). destruct (rep_ok iso Jm cm i (y / Np) HJ Hi By) as (Tc & Mc & Bc).
    assert (Sm : same_2N_channel true (rep iso cm i (x / Np)) (rep iso cm i (y / Np))).
    { apply (proj1 (proj1 (numbering_tensor iso Jm _ _ (proj1 Tr) (proj1 Tc) (ms_J _ _ _ _ (proj2 Tr))))); congruence. }
    assert (H1 := H _ _ (in_table _ Tr) (in_table _ Tc) Sm _ _ Mx My). unfold entry in H1. rewrite Mr in H1.
    destruct cm; unfold pick, dim2 in *.
    + rewrite Br, Bc in H1 by reflexivity. rewrite Nat2Z.id in H1. unfold coup_addr in H1.
      assert (Ex : x / Np * Np + x mod Np = x) by (rewrite (Nat.div_mod x Np) at 3 by lia; lia).
      assert (Ey : y / Np * Np + y mod Np = y) by (rewrite (Nat.div_mod y Np) at 3 by lia; lia).
      rewrite Ex, Ey in H1. apply (nth_error_nth _ _ 0%R) in H1. rewrite <- H1. f_equal. lia.
    + rewrite Nat2Z.id in H1. unfold unco_addr in H1. apply (nth_error_nth _ _ 0%R) in H1.
      rewrite <- H1. rewrite !Nat.mod_small by assumption. f_equal. lia.
Qed.

Lemma op3_potential V states : (forall s, In s states -> In s (ss_states ss)) ->
  (forall r c i j, In r (ss_states ss) -> In c (ss_states ss) -> same_2N_channel true r c -> i < Np -> j < Np ->
      entry true iso Np V r c i j = Some (target mid pot vg r c i j)) ->
  forall Nq x y, valid3 (length states) Nq Np x -> valid3 (length states) Nq Np y -> op3 true iso Np states V x y = potential3 mid pot vg states x y.
Proof.
  intros Hin H Nq [[a q] k] [[a' q'] k'] (H1 & H2 & H3) (H4 & H5 & H6). unfold op3, potential3.
  destruct ((q =? q') && connects true (nth a states dummy_pw) (nth a' states dummy_pw)) eqn:E; [ | reflexivity ].
  apply andb_prop in E. destruct E as [_ E]. unfold elem2. rewrite H; [ reflexivity | apply Hin, nth_In; assumption | apply Hin, nth_In; assumption | | assumption | assumption ].
  apply KernelBlockProofs.connects_iff in E. apply E.
Qed.
End Pot.
