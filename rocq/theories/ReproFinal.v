From Coq Require Import Reals Lra Lia Sorted Classical Permutation String.
From Coquelicot Require Import Coquelicot.
From Verif Require Import Common ArrayLib PWModel PWSpec PWPropsLemmas SwpModel SwpSpec SparseModel GridSpec GridPropsLemmas PermModel PermSpec PermWholeModel PermWholeSpec GeoModel GeoSpec
  NameModel PioModel PioSpec KernelModel KernelSpec KernelColProofs PotentialModel PotentialSpec ResolventModel SwpWholeModel SwpWholeSpec SpectralSpec OnShellModel OnShellSpec
  FaddeevModel FaddeevSpec FaddeevLink DetModel DenseModel PadeSpec AgsSpec ChainModel ChainSpec ChainProofs ChainFinal UniqueProofs DetermineProofs ReproModel ReproSpec ReproProofs.
From Verif Require PermWholeProofs.
Open Scope nat_scope.

Lemma direction_unique pi1 pi2 pb qb pp qp p q phi v v' :
  direction_integral pi1 pi2 pb qb pp qp p q phi v -> direction_integral pi1 pi2 pb qb pp qp p q phi v' -> v = v'.
Proof.
  assert (Z0 : forall (f : R -> R) a b w, is_RInt f a b w -> a = b -> w = 0%R).
  { intros f a b w H ->. rewrite <- (@is_RInt_unique R_CompleteNormedModule f b b w H). exact (@RInt_point R_CompleteNormedModule b f). }
  assert (X : forall a b, (0 <= a <= b)%R ->
    (forall k, (0 < k)%R -> (in_cells pi1 pi2 pb qb pp qp p q (k * sin phi) (k * cos phi) <-> (a <= k <= b)%R)) ->
    (forall k, (0 < k)%R -> ~ in_cells pi1 pi2 pb qb pp qp p q (k * sin phi) (k * cos phi)) -> a = b).
  { intros a b [A1 A2] Hi Hn. destruct (Rle_lt_dec b 0) as [Hb|Hb]; [ lra | ]. exfalso. apply (Hn b Hb). apply (Hi b Hb). lra. }
  intros [[H1 ->]|(a & b & Hab & Hi & HI)] [[H2 ->]|(a' & b' & Hab' & Hi' & HI')].
  - reflexivity.
  - symmetry. apply (Z0 _ _ _ _ HI'). apply (X a' b' Hab' Hi' H1).
  - apply (Z0 _ _ _ _ HI). apply (X a b Hab Hi H2).
  - destruct (Rle_lt_dec b 0) as [Hb|Hb].
    + assert (a = b) by lra. rewrite (Z0 _ _ _ _ HI) by assumption. symmetry. apply (Z0 _ _ _ _ HI'). apply (X a' b' Hab' Hi').
      intros k Hk Hc. apply (Hi k Hk) in Hc. lra.
    + assert (Ib : (a' <= b <= b')%R) by (apply (Hi' b Hb), (Hi b Hb); lra).
      assert (Hb' : (0 < b')%R) by lra. assert (Ib' : (a <= b' <= b)%R) by (apply (Hi b' Hb'), (Hi' b' Hb'); lra).
      assert (b = b') by lra. subst b'.
      assert (a = a') as <-.
      { destruct (Rtotal_order a a') as [L|[->|L]]; [ | reflexivity | ].
        - exfalso. assert (0 < (a + a') / 2)%R by lra. assert (T : (a' <= (a + a') / 2 <= b)%R) by (apply (Hi' _ H), (Hi _ H); lra). lra.
        - exfalso. assert (0 < (a + a') / 2)%R by lra. assert (T : (a <= (a + a') / 2 <= b)%R) by (apply (Hi _ H), (Hi' _ H); lra). lra. }
      rewrite <- (@is_RInt_unique R_CompleteNormedModule _ _ _ _ HI). apply (@is_RInt_unique R_CompleteNormedModule _ _ _ _ HI').
Qed.
Lemma element_unique sixj ninej threej sphP roots dleg xs wxs pb qb r c qp pp q p v v' :
  permutation_element sixj ninej threej sphP roots dleg xs wxs pb qb r c qp pp q p v ->
  permutation_element sixj ninej threej sphP roots dleg xs wxs pb qb r c qp pp q p v' -> v = v'.
Proof.
  intros (u & Hu & ->) (u' & Hu' & ->). f_equal. apply sum_ext. intros i Hi. apply sum_ext. intros j Hj. f_equal.
  exact (direction_unique _ _ _ _ _ _ _ _ _ _ _ (Hu j i Hj Hi) (Hu' j i Hj Hi)).
Qed.
Lemma operator_unique sixj ninej threej sphP roots dleg xs wxs p q states Nq Np P P' : 1 <= Nq -> 1 <= Np ->
  permutation_operator sixj ninej threej sphP roots dleg xs wxs p q states Nq Np P -> permutation_operator sixj ninej threej sphP roots dleg xs wxs p q states Nq Np P' ->
  same_below (length states * Nq * Np) P P'.
Proof.
  intros H1 H2 HP HP' x y Hx Hy. destruct (state_of_valid (length states) Nq Np x ltac:(lia) ltac:(lia) Hx) as [Vx Ex]. destruct (state_of_valid (length states) Nq Np y ltac:(lia) ltac:(lia) Hy) as [Vy Ey].
  rewrite <- Ex, <- Ey. destruct (state_of Nq Np x) as [[a iq] i], (state_of Nq Np y) as [[a' iq'] i'].
  exact (element_unique _ _ _ _ _ _ _ _ _ _ _ _ _ _ _ _ _ _ (HP _ _ _ _ _ _ Vx Vy) (HP' _ _ _ _ _ _ Vx Vy)).
Qed.

Section Runs.
Variables (gg Jm mx : Z) (iso mid : bool) (ss : statespace) (c : Z) (states : list pw) (Nq : nat) (q : list R) (pot : potmodel) (vg : vgrid) (inputs : list R).
Notation Np := (vg_Np vg).
Notation p := (vg_pWP vg).
Notation N := (length states).
Notation D := (length states * Nq * vg_Np vg).
Hypothesis Hmx : (1 <= mx)%Z.
Hypothesis Hodd : Z.Odd mx.
Hypothesis Hss : construct_symmetric_pw_states_g gg Jm mx iso = Ok ss.
Hypothesis Hc : (0 <= c < ss_N_chn ss)%Z.
Hypothesis Hsl : channel_slice ss c = Ok states.
Hypothesis Hmid : mid = false \/ iso = false.
Hypothesis Hpot : hermitian_model pot (ss_states ss).
Hypothesis Hg : vgrid_ok mid vg.
Hypothesis HNp : 3 <= Np.
Hypothesis HNq : 1 <= Nq.
Hypothesis Hq : partition_from_zero Nq q.
Hypothesis HD : (Z.of_nat D < 2 ^ 31)%Z.

(* what a run is given, apart from the physics *)
Definition lib_ok (diag : nat -> list R -> list R * list R) (srt : list Z -> list nat) solve mem (cmem : nat -> nat -> list cdouble) (pmem : nat -> nat -> list ptr) junk (res : list (Z * Z * R)) : Prop :=
  (forall keys, sort_indexes_contract keys (srt keys)) /\ solve_contract solve /\ allocates mem /\ allocates cmem /\ allocates pmem /\
  (forall row col v, In (row, col, v) res -> (0 <= row < Z.of_nat D)%Z /\ (0 <= col < Z.of_nat D)%Z) /\
  (forall V, fresh_potential mem iso mid Jm pot junk vg (ss_states ss) = Ok V ->
     solves diag Np p V (num_channels iso Jm) /\
     forall cm i, is_channel iso (ss_states ss) cm i -> let w := fst (spectrum diag Np p V cm i) in
       increasing w /\ forall k, k < dim2 cm Np -> nth k w 0%R <> 0%R /\ (- (Mn + Mp) < nth k w 0)%R).

Lemma two_runs diag srt solve mem cmem pmem junk res diag' srt' solve' mem' cmem' pmem' junk' res' :
  lib_ok diag srt solve mem cmem pmem junk res -> lib_ok diag' srt' solve' mem' cmem' pmem' junk' res' ->
  let P i j := PermWholeSpec.entry res (Z.of_nat i) (Z.of_nat j) in let P' i j := PermWholeSpec.entry res' (Z.of_nat i) (Z.of_nat j) in
  same_below D P P' ->
  let run := channel_run diag srt solve mem cmem pmem iso mid Jm Nq q pot junk vg ss c inputs res in
  let run' := channel_run diag' srt' solve' mem' cmem' pmem' iso mid Jm Nq q pot junk' vg ss c inputs res' in
  (run = Err /\ run' = Err) \/
  exists r1 r2, run = Ok r1 /\ run' = Ok r2 /\
    forall op : (nat -> nat -> R) -> Prop, op P -> (forall Q Q', op Q -> op Q' -> same_below D Q Q') ->
    same_result mid pot vg Nq q states op r1 r2.
Proof.
  intros (A1 & A2 & A3 & A4 & A5 & A6 & A7) (B1 & B2 & B3 & B4 & B5 & B6 & B7) P P' HP run run'.
  destruct (potential_all gg Jm mx iso mid ss pot junk vg Hmx Hss Hmid Hpot Hg
    (mem 0 (Np * Np * Z.to_nat (num_2N_unco_states true iso Jm))) (mem 1 (Np * Np * 4 * Z.to_nat (num_2N_coup_states true iso Jm))) (A3 _ _) (A3 _ _)) as (V & EV & _).
  destruct (potential_all gg Jm mx iso mid ss pot junk' vg Hmx Hss Hmid Hpot Hg
    (mem' 0 (Np * Np * Z.to_nat (num_2N_unco_states true iso Jm))) (mem' 1 (Np * Np * 4 * Z.to_nat (num_2N_coup_states true iso Jm))) (B3 _ _) (B3 _ _)) as (V' & EV' & _).
  assert (V = V') as <- by (eapply (potential_unique gg Jm mx iso mid ss Nq pot vg Hmx Hss Hmid Hpot Hg HNp HNq junk junk'); [ apply A3 | apply A3 | apply B3 | apply B3 | exact EV | exact EV' ]).
  assert (FV : fresh_potential mem iso mid Jm pot junk vg (ss_states ss) = Ok V) by exact EV.
  assert (FV' : fresh_potential mem' iso mid Jm pot junk' vg (ss_states ss) = Ok V) by exact EV'.
  assert (Hw : forall cm i, is_channel iso (ss_states ss) cm i -> fst (spectrum diag Np p V cm i) = fst (spectrum diag' Np p V cm i)).
  { intros cm i Hch. destruct (A7 V FV) as [S1 I1]. destruct (B7 V FV') as [S2 I2]. assert (Hi := channel_no gg Jm mx iso mid ss Nq vg Hss HNp HNq cm i Hch).
    exact (spectrum_unique _ _ _ _ _ _ (S1 cm i Hi) (S2 cm i Hi) (proj1 (I1 cm i Hch)) (proj1 (I2 cm i Hch))). }
  assert (bo_ext : forall cm i, is_channel iso (ss_states ss) cm i -> bound_states_ok (is_deuteron_channel iso (ss_states ss) cm i) (fst (spectrum diag Np p V cm i)) <->
     bound_states_ok (is_deuteron_channel iso (ss_states ss) cm i) (fst (spectrum diag' Np p V cm i))) by (intros cm i Hch; rewrite (Hw cm i Hch); reflexivity).
  assert (be_ext : forall Eb, bound_energy iso (ss_states ss) (fun cm i => fst (spectrum diag Np p V cm i)) Eb <-> bound_energy iso (ss_states ss) (fun cm i => fst (spectrum diag' Np p V cm i)) Eb).
  { intros Eb. split; apply bound_energy_ext; [ exact Hw | intros cm i Hch; symmetry; exact (Hw cm i Hch) ]. }
  destruct (chain_c91 diag srt solve mem cmem pmem gg Jm mx iso mid ss c states Nq q pot junk vg inputs res A1 A2 A3 A4 A5 Hmx Hodd Hss Hc Hsl Hmid Hpot Hg HNp HNq Hq HD A6 A7)
    as [[E1 X1]|(r1 & E1 & S1 & Y1)];
  destruct (chain_c91 diag' srt' solve' mem' cmem' pmem' gg Jm mx iso mid ss c states Nq q pot junk' vg inputs res' B1 B2 B3 B4 B5 Hmx Hodd Hss Hc Hsl Hmid Hpot Hg HNp HNq Hq HD B6 B7)
    as [[E2 X2]|(r2 & E2 & S2 & Y2)].
  - left. auto.
  - exfalso. cbv zeta in Y2. destruct Y2 as (V2 & Q0 & Q1 & Q2 & _). assert (cr_V r2 = V) as RV by congruence. rewrite RV in *.
    destruct X1 as [(W & cm & i & EW & Hch & Hbad)|(W & Eb & EW & HB & Hel)]; assert (W = V) by congruence; subst W.
    + apply Hbad. apply (bo_ext cm i Hch). exact (Q0 cm i Hch).
    + apply be_ext in HB. rewrite (bound_unique iso ss _ _ _ Q0 HB Q1) in Hel. congruence.
  - exfalso. cbv zeta in Y1. destruct Y1 as (V1 & Q0 & Q1 & Q2 & _). assert (cr_V r1 = V) as RV by congruence. rewrite RV in *.
    destruct X2 as [(W & cm & i & EW & Hch & Hbad)|(W & Eb & EW & HB & Hel)]; assert (W = V) by congruence; subst W.
    + apply Hbad. apply (bo_ext cm i Hch). exact (Q0 cm i Hch).
    + apply be_ext in HB. rewrite (bound_unique iso ss _ _ _ Q0 HB Q1) in Hel. congruence.
  - right. exists r1, r2. split; [ exact E1 | ]. split; [ exact E2 | ]. intros op HopP Hop. cbv zeta in Y1, Y2.
    destruct Y1 as (V1 & Q0 & Q1 & Q2 & _ & Q4 & Q5 & Q6 & Q7 & Q8 & Q9 & Q10). destruct Y2 as (V2 & T0 & T1 & T2 & _ & _ & _ & T6 & _ & T8 & T9 & T10).
    assert (cr_V r1 = V) as RV by congruence. assert (cr_V r2 = V) as RV' by congruence. rewrite RV in *. rewrite RV' in *.
    assert (EEb : sw_Eb (cr_swp r1) = sw_Eb (cr_swp r2)) by (apply be_ext in T1; exact (bound_unique iso ss _ _ _ Q0 Q1 T1)). rewrite <- EEb in *.
    assert (Eos : cr_os r1 = cr_os r2) by congruence. rewrite <- Eos in *.
    assert (Eds : cr_ds r1 = cr_ds r2) by (apply sorted_same; [ exact Q8 | exact T8 | intros x; rewrite Q9, T9; reflexivity ]). rewrite <- Eds in *.
    unfold same_result. cbv zeta. repeat (split; [ congruence | ]). split.
    + destruct Q10 as (C & lam & edge & HW & _). exists P, C, lam, edge. auto.
    + intros PP C lam edge HPP HW dr dc j Hdr Hdc Hj Hreg. rewrite <- Q4 in Hj |- *.
      assert (KK : same_below D (kernel_2PV states Nq Np PP (potential3 mid pot vg states)) (kernel_2PV states Nq Np P (potential3 mid pot vg states))).
      { intros x y Hx Hy. unfold kernel_2PV, two_PV. apply sum_ext. intros z Hz. rewrite (Hop PP P HPP HopP x z Hx Hz). reflexivity. }
      refine (amplitudes_unique gg Jm mx iso mid ss c states Nq q vg Hmx Hodd Hss Hc Hsl HNp HNq _ P P' _ _ _ _ _ _ C lam edge Q10 T10 HP _ (fun i Hi => proj1 (Q9 i) Hi) HW dr dc j Hdr Hdc Hj _).
      * intros k Hk. rewrite Q4 in Hk. apply (Q7 k Hk).
      * exact (regular_same D _ _ _ _ KK (fun x y _ _ => eq_refl) Hreg).
Qed.
End Runs.

Section Program.
Variables (sixj : Z -> Z -> Z -> Z -> Z -> Z -> R) (ninej : Z -> Z -> Z -> Z -> Z -> Z -> Z -> Z -> Z -> R) (threej : Z -> Z -> Z -> Z -> Z -> Z -> R)
  (sphP : Z -> Z -> R -> R) (legblock : Z -> R -> list R) (legsize : Z -> Z) (roots : list R) (dleg : R -> R) (xs wxs : list R)
  (gg Jm mx : Z) (iso mid : bool) (ss : statespace) (c : Z) (states : list pw) (Nq : nat) (q : list R) (pot : potmodel) (vg : vgrid) (inputs : list R).
Notation Np := (vg_Np vg).
Notation p := (vg_pWP vg).
Notation D := (length states * Nq * vg_Np vg).
Hypothesis H3 : threej_rule threej.
Hypothesis H9 : ninej_rule ninej.
Hypothesis HL : legendre_rule sphP legblock legsize.
Hypothesis Hmx : (1 <= mx)%Z.
Hypothesis Hodd : Z.Odd mx.
Hypothesis Hss : construct_symmetric_pw_states_g gg Jm mx iso = Ok ss.
Hypothesis Hc : (0 <= c < ss_N_chn ss)%Z.
Hypothesis Hsl : channel_slice ss c = Ok states.
Hypothesis Hmid : mid = false \/ iso = false.
Hypothesis Hpot : hermitian_model pot (ss_states ss).
Hypothesis Hg : vgrid_ok mid vg.
Hypothesis HNp : 3 <= Np.
Hypothesis HNq : 1 <= Nq.
Hypothesis Hp : partition_from_zero Np p.
Hypothesis Hq : partition_from_zero Nq q.
Hypothesis HD : (Z.of_nat D < 2 ^ 31)%Z.
Hypothesis Mr : mesh_in (-1) 1 roots.
Hypothesis Mx : mesh_in (-1) 1 xs.
Hypothesis Lw : length wxs = length xs.
Notation program := (channel_program sixj ninej threej legblock legsize roots dleg xs wxs iso mid Jm Nq q pot vg ss c inputs).
Notation env_ok := (environment_ok legsize (length roots) (length xs) iso mid Jm Nq pot vg ss c states).
Notation op := (permutation_operator sixj ninej threej sphP roots dleg xs wxs p q states Nq Np).

Lemma flat_map_seq_ext {A} (f g : nat -> list A) n : (forall i, i < n -> f i = g i) -> flat_map f (seq 0 n) = flat_map g (seq 0 n).
Proof. intros H. rewrite !flat_map_concat_map. f_equal. apply map_ext_in. intros a Ha. apply in_seq in Ha. apply H. lia. Qed.

Lemma program_permutation E out : env_ok E -> program E out -> exists res,
  lib_ok Jm iso mid ss states Nq pot vg (en_diag E) (en_sort E) (en_solve E) (en_mem E) (en_cmem E) (en_pmem E) (en_junk E) res /\
  op (fun i j => PermWholeSpec.entry res (Z.of_nat i) (Z.of_nat j)) /\
  out = channel_run (en_diag E) (en_sort E) (en_solve E) (en_mem E) (en_cmem E) (en_pmem E) iso mid Jm Nq q pot (en_junk E) vg ss c inputs res.
Proof.
  intros HE (st & phi & wphi & tab & t & rows & fs & res & Es & E1 & E2 & E3 & Hperm & EB & ->). assert (st = states) by congruence. subst st.
  destruct HE as [O1 O2 O3 O4 O5 O6 (L1 & L2 & L3 & Hal & LG) Ov Os [HB Hb] Ht Hn].
  destruct (PermWholeProofs.whole_matrix sixj ninej threej sphP legblock legsize gg Jm mx iso ss c states roots dleg Np Nq p q xs wxs (en_phi E) (en_wphi E) (en_tab E) (en_geo E)
    H3 H9 HL Hmx Hodd Hss Hc Hsl Hp Hq Mr Mx Lw L1 L2 L3 Hal) as (phi' & wphi' & tab' & t' & rows' & E1' & E2' & E3' & H).
  rewrite E1 in E1'. injection E1' as <- <- <-. rewrite E2 in E2'. injection E2' as <-.
  assert (Hrows : flat_map rows (seq 0 Nq) = flat_map rows' (seq 0 Nq)).
  { apply flat_map_seq_ext. intros i Hi. assert (X := E3 i Hi). rewrite (E3' i (en_G E i) Hi (LG i)) in X. congruence. }
  rewrite Hrows in Hperm.
  destruct (H (en_veqb E) (en_srt E) (en_folder E) Jm (en_B E) (en_T E) (en_buf E) (en_fs E) (en_evs E) Ov Os HB Hn Hb Ht Hperm) as (fs' & res' & EB' & _ & Hin & Hent).
  rewrite EB in EB'. injection EB' as <- <-. exists res. split; [ | split; [ | reflexivity ] ].
  - unfold lib_ok. do 5 (split; [ assumption | ]). split; [ | exact O6 ]. intros row col v Hi. exact (proj2 (Hin row col v Hi)).
  - intros a iq i a' iq' i' (A1 & A2 & A3) (B1 & B2 & B3).
    destruct (Hent a iq i a' iq' i' _ _ (nth_error_nth' states dummy_pw A1) (nth_error_nth' states dummy_pw B1) A2 A3 B2 B3) as (v & Hv1 & Hv2).
    exists v. split; [ exact Hv1 | ]. rewrite <- Hv2. unfold idx3. f_equal; lia.
Qed.

Lemma reproducible E1 E2 o1 o2 : env_ok E1 -> env_ok E2 -> program E1 o1 -> program E2 o2 ->
  (o1 = Err /\ o2 = Err) \/ exists r1 r2, o1 = Ok r1 /\ o2 = Ok r2 /\ same_result mid pot vg Nq q states op r1 r2.
Proof.
  intros HE1 HE2 HP1 HP2. destruct (program_permutation E1 o1 HE1 HP1) as (res & Hl & Ho & ->). destruct (program_permutation E2 o2 HE2 HP2) as (res' & Hl' & Ho' & ->).
  assert (Uo : forall Q Q', op Q -> op Q' -> same_below D Q Q') by (intros Q Q'; apply operator_unique; lia).
  destruct (two_runs gg Jm mx iso mid ss c states Nq q pot vg inputs Hmx Hodd Hss Hc Hsl Hmid Hpot Hg HNp HNq Hq HD _ _ _ _ _ _ _ _ _ _ _ _ _ _ _ _ Hl Hl' (Uo _ _ Ho Ho'))
    as [X|(r1 & r2 & X1 & X2 & HR)]; [ left; exact X | ].
  right. exists r1, r2. split; [ exact X1 | ]. split; [ exact X2 | ]. exact (HR op Ho Uo).
Qed.
End Program.
