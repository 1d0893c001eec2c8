(* C101: two runs of one three-nucleon channel with the iterative solver. *)
From Coq Require Import Reals Lra Lia Sorted Classical FunctionalExtensionality.
From Verif Require Import Common ArrayLib PWModel PWSpec PWPropsLemmas SwpModel SwpSpec SparseModel GridSpec GridPropsLemmas PermSpec PermWholeSpec
  KernelModel KernelSpec KernelColProofs PotentialModel PotentialSpec ResolventModel SwpWholeModel SwpWholeSpec SpectralSpec OnShellModel OnShellSpec
  FaddeevModel FaddeevSpec DetModel DenseModel PadeSpec AgsSpec FaddeevLink FaddeevStatements ChainModel ChainSpec ChainProofs ChainFinal UniqueProofs DetermineProofs
  IterSpec IterFinal ReproModel ReproSpec ReproProofs ReproFinal ResumProofs.
Open Scope nat_scope.

Section Runs.
Variables (gg Jm mx : Z) (iso mid : bool) (ss : statespace) (c : Z) (states : list pw) (Nq : nat) (q : list R) (pot : potmodel) (vg : vgrid) (inputs : list R).
Notation Np := (vg_Np vg).
Notation p := (vg_pWP vg).
Notation N := (length states).
Notation D := (length states * Nq * vg_Np vg).
Hypothesis Hmx : (1 <= mx)%Z.
Hypothesis Hodd : Z.Odd mx.
Hypothesis Hss : construct_symmetric_pw_states_g gg Jm mx iso = Ok ss.
Hypothesis Hc : (0 <= c < ss_N_chn ss)%Z.
Hypothesis Hsl : channel_slice ss c = Ok states.
Hypothesis Hmid : mid = false \/ iso = false.
Hypothesis Hpot : hermitian_model pot (ss_states ss).
Hypothesis Hg : vgrid_ok mid vg.
Hypothesis HNp : 3 <= Np.
Hypothesis HNq : 1 <= Nq.
Hypothesis Hq : partition_from_zero Nq q.
Hypothesis HD : (Z.of_nat D <= 2 ^ 28)%Z.
Notation V3 := (potential3 mid pot vg states).

(* the terms of the Born series do not depend on the eigenvectors *)
Lemma terms_same diag mem junk res diag' mem' junk' res' r r' :
  let P i j := PermWholeSpec.entry res (Z.of_nat i) (Z.of_nat j) in let P' i j := PermWholeSpec.entry res' (Z.of_nat i) (Z.of_nat j) in
  same_below D P P' ->
  staged diag mem Jm mx iso mid ss c states Nq q pot junk vg inputs res false r -> staged diag' mem' Jm mx iso mid ss c states Nq q pot junk' vg inputs res' false r' ->
  sw_Eb (cr_swp r) = sw_Eb (cr_swp r') -> cr_os r = cr_os r' -> cr_ds r = cr_ds r' ->
  forall e n, elastic (cr_sys r) e ->
    term (cr_sys r) (kernel_matrix (cr_sys r) true iso states (cr_V r) (sw_C (cr_swp r))) n e =
    term (cr_sys r') (kernel_matrix (cr_sys r') true iso states (cr_V r') (sw_C (cr_swp r'))) n e.
Proof.
  intros P P' HP (R1 & HR) (R1' & HR') EEb Eos Eds e n He. cbv zeta in HR, HR'.
  destruct HR as (R2 & R3 & R4 & R5 & R6 & R7 & R8 & R9 & R10 & R11 & S1 & S2 & S3 & S4 & S5 & S6 & S7 & S8 & Sys & RU & RB & C & lam & edge & HW & HB & HL & HT & _).
  destruct HR' as (R2' & R3' & R4' & R5' & R6' & R7' & R8' & R9' & R10' & R11' & S1' & S2' & S3' & S4' & S5' & S6' & S7' & S8' & Sys' & RU' & RB' & C' & lam' & edge' & HW' & HB' & HL' & HT' & _).
  rewrite <- EEb, <- Eos, <- Eds in *.
  assert (He' : elastic (cr_sys r') e).
  { destruct He as (dr & dc & j & He). exists dr, dc, j. unfold s_nd, s_nq in *. rewrite S2, S3, S4, S5 in He. rewrite S2', S3', S4', S5'. exact He. }
  rewrite (HT n e (or_introl He)), (HT' n e (or_introl He')).
  assert (Lnq : s_nq (cr_sys r) = length (os_T (cr_os r))) by (unfold s_nq; rewrite S4; exact R8).
  destruct He as (dr & dc & j & Hdr & Hdc & Hj & ->). cbn [e_row e_col]. rewrite Lnq in *.
  assert (Er : row_state (cr_sys r') (dr * length (os_T (cr_os r)) + j) = row_state (cr_sys r) (dr * length (os_T (cr_os r)) + j)).
  { unfold row_state, s_nq. rewrite S2, S3, S4, S5, S2', S3', S4', S5'. reflexivity. }
  rewrite Er.
  assert (M : (dr * length (os_T (cr_os r)) + j) mod length (os_T (cr_os r)) = j) by (rewrite Nat.add_comm, Nat.mod_add by lia; apply Nat.mod_small; lia).
  assert (Dv : (dr * length (os_T (cr_os r)) + j) / length (os_T (cr_os r)) = dr) by (rewrite Nat.div_add_l by lia; rewrite Nat.div_small by lia; lia).
  rewrite M. replace (row_state (cr_sys r) (dr * length (os_T (cr_os r)) + j)) with (idx3 Nq Np (nth dr (cr_ds r) 0, nth j (os_idx (cr_os r)) 0, 0))
    by (unfold row_state; rewrite Lnq, S2, S3, S4, S5, M, Dv; reflexivity).
  rewrite S2, S3, S4, S5. assert (Ldr : dr < length (cr_ds r)) by (unfold s_nd in Hdr; rewrite S5 in Hdr; exact Hdr). assert (Ldc : dc < length (cr_ds r)) by (unfold s_nd in Hdc; rewrite S5 in Hdc; exact Hdc).
  destruct (proj1 (R11 _) (nth_In _ 0 Ldr)) as [I1 D1]. destruct (proj1 (R11 _) (nth_In _ 0 Ldc)) as [I2 D2]. assert (Hb := proj1 (R9 j Hj)). cbv zeta in Hb.
  destruct (states_ok gg Jm mx iso ss c states Hmx Hodd Hss Hc Hsl) as [Hst HN].
  rewrite (between_equal iso Jm mx (nth_chn c) Nq Np states p _ _ Hst HN HNp HNq C C' lam lam' edge edge' HW HW' _ (nth j (os_idx (cr_os r)) 0) _ _ Hb I1 I2 D1 D2).
  apply between_same; [ intros x y _ _; reflexivity | | apply idx3_lt; cbn; lia | apply idx3_lt; cbn; lia ].
  apply born_same; [ | exact (resolvents_equal iso Jm mx (nth_chn c) Nq Np states p q _ _ Hst HN HNp HNq C C' lam lam' edge edge' HW HW' _) ].
  intros x y Hx Hy. unfold kernel_2PV, two_PV. apply sum_ext. intros z Hz. assert (HX := HP x z Hx Hz). unfold P, P' in HX. cbv beta in HX |- *. rewrite HX. reflexivity.
Qed.

(* what a run is given, apart from the physics *)
Definition lib_it (diag : nat -> list R -> list R * list R) (srt : list Z -> list nat) getrf mem (cmem : nat -> nat -> list cdouble) (pmem : nat -> nat -> list ptr) junk (res : list (Z * Z * R)) : Prop :=
  (forall keys, sort_indexes_contract keys (srt keys)) /\ getrf_contract getrf /\ allocates mem /\ allocates cmem /\ allocates pmem /\
  (forall row col v, In (row, col, v) res -> (0 <= row < Z.of_nat D)%Z /\ (0 <= col < Z.of_nat D)%Z) /\
  (forall V, fresh_potential mem iso mid Jm pot junk vg (ss_states ss) = Ok V ->
     solves diag Np p V (num_channels iso Jm) /\
     forall cm i, is_channel iso (ss_states ss) cm i -> let w := fst (spectrum diag Np p V cm i) in
       increasing w /\ forall k, k < dim2 cm Np -> nth k w 0%R <> 0%R /\ (- (Mn + Mp) < nth k w 0)%R).

(* the same numbers: matrices, energy of the deuteron, kinematics, waves, amplitudes *)
Definition same_report (r r' : chan_result) : Prop :=
  cr_states r = cr_states r' /\ cr_V r = cr_V r' /\ sw_Eb (cr_swp r) = sw_Eb (cr_swp r') /\ cr_os r = cr_os r' /\ cr_ds r = cr_ds r' /\ cr_U r = cr_U r'.

Lemma two_iterations diag srt getrf mem cmem pmem junk res diag' srt' getrf' mem' cmem' pmem' junk' res' f fb fb' :
  lib_it diag srt getrf mem cmem pmem junk res -> lib_it diag' srt' getrf' mem' cmem' pmem' junk' res' ->
  let P i j := PermWholeSpec.entry res (Z.of_nat i) (Z.of_nat j) in let P' i j := PermWholeSpec.entry res' (Z.of_nat i) (Z.of_nat j) in
  same_below D P P' ->
  let run := channel_iterate diag srt mem cmem pmem (determinant getrf) (Some f, Some fb) false iso mid Jm Nq q pot junk vg ss c inputs res in
  let run' := channel_iterate diag' srt' mem' cmem' pmem' (determinant getrf') (Some f, Some fb') false iso mid Jm Nq q pot junk' vg ss c inputs res' in
  (run = Err /\ run' = Err) \/ exists r1 r2, run = Ok r1 /\ run' = Ok r2 /\ same_report r1 r2.
Proof.
  intros (A1 & A2 & A3 & A4 & A5 & A6 & A7) (B1 & B2 & B3 & B4 & B5 & B6 & B7) P P' HP run run'.
  destruct (potential_all gg Jm mx iso mid ss pot junk vg Hmx Hss Hmid Hpot Hg
    (mem 0 (Np * Np * Z.to_nat (num_2N_unco_states true iso Jm))) (mem 1 (Np * Np * 4 * Z.to_nat (num_2N_coup_states true iso Jm))) (A3 _ _) (A3 _ _)) as (V & EV & _).
  destruct (potential_all gg Jm mx iso mid ss pot junk' vg Hmx Hss Hmid Hpot Hg
    (mem' 0 (Np * Np * Z.to_nat (num_2N_unco_states true iso Jm))) (mem' 1 (Np * Np * 4 * Z.to_nat (num_2N_coup_states true iso Jm))) (B3 _ _) (B3 _ _)) as (V' & EV' & _).
  assert (V = V') as <- by (eapply (potential_unique gg Jm mx iso mid ss Nq pot vg Hmx Hss Hmid Hpot Hg HNp HNq junk junk'); [ apply A3 | apply A3 | apply B3 | apply B3 | exact EV | exact EV' ]).
  assert (FV : fresh_potential mem iso mid Jm pot junk vg (ss_states ss) = Ok V) by exact EV.
  assert (FV' : fresh_potential mem' iso mid Jm pot junk' vg (ss_states ss) = Ok V) by exact EV'.
  assert (Hw : forall cm i, is_channel iso (ss_states ss) cm i -> fst (spectrum diag Np p V cm i) = fst (spectrum diag' Np p V cm i)).
  { intros cm i Hch. destruct (A7 V FV) as [S1 I1]. destruct (B7 V FV') as [S2 I2]. assert (Hi := channel_no gg Jm mx iso mid ss Nq vg Hss HNp HNq cm i Hch).
    exact (spectrum_unique _ _ _ _ _ _ (S1 cm i Hi) (S2 cm i Hi) (proj1 (I1 cm i Hch)) (proj1 (I2 cm i Hch))). }
  assert (bo_ext : forall cm i, is_channel iso (ss_states ss) cm i -> bound_states_ok (is_deuteron_channel iso (ss_states ss) cm i) (fst (spectrum diag Np p V cm i)) <->
     bound_states_ok (is_deuteron_channel iso (ss_states ss) cm i) (fst (spectrum diag' Np p V cm i))) by (intros cm i Hch; rewrite (Hw cm i Hch); reflexivity).
  assert (be_ext : forall Eb, bound_energy iso (ss_states ss) (fun cm i => fst (spectrum diag Np p V cm i)) Eb <-> bound_energy iso (ss_states ss) (fun cm i => fst (spectrum diag' Np p V cm i)) Eb).
  { intros Eb. split; apply bound_energy_ext; [ exact Hw | intros cm i Hch; symmetry; exact (Hw cm i Hch) ]. }
  unfold run, run', channel_iterate.
  destruct (all_stages diag srt mem cmem pmem gg Jm mx iso mid ss c states Nq q pot junk vg inputs res A1 A3 A4 A5 Hmx Hodd Hss Hc Hsl Hmid Hpot Hg HNp HNq Hq HD A6 A7 false)
    as [[E1 X1]|[(_ & Y & _)|(r1 & E1 & S1)]]; [ | discriminate Y | ];
  (destruct (all_stages diag' srt' mem' cmem' pmem' gg Jm mx iso mid ss c states Nq q pot junk' vg inputs res' B1 B3 B4 B5 Hmx Hodd Hss Hc Hsl Hmid Hpot Hg HNp HNq Hq HD B6 B7 false)
    as [[E2 X2]|[(_ & Y & _)|(r2 & E2 & S2)]]; [ | discriminate Y | ]); rewrite E1, E2; cbn [obind].
  - left. auto.
  - exfalso. destruct S2 as (V2 & S2). cbv zeta in S2. destruct S2 as (V3' & Q0 & Q1 & Q2 & _). assert (cr_V r2 = V) as RV by (unfold fresh_potential in FV'; congruence). rewrite RV in *.
    destruct X1 as [(W & cm & i & EW & Hch & Hbad)|(W & Eb & EW & HB & [Hel|[Hb _]])]; [ | | discriminate Hb ]; assert (W = V) by congruence; subst W.
    + apply Hbad. apply (bo_ext cm i Hch). exact (Q0 cm i Hch).
    + apply be_ext in HB. rewrite (bound_unique iso ss _ _ _ Q0 HB Q1) in Hel. congruence.
  - exfalso. destruct S1 as (V2 & S1). cbv zeta in S1. destruct S1 as (V3' & Q0 & Q1 & Q2 & _). assert (cr_V r1 = V) as RV by (unfold fresh_potential in FV; congruence). rewrite RV in *.
    destruct X2 as [(W & cm & i & EW & Hch & Hbad)|(W & Eb & EW & HB & [Hel|[Hb _]])]; [ | | discriminate Hb ]; assert (W = V) by congruence; subst W.
    + apply Hbad. apply (bo_ext cm i Hch). exact (Q0 cm i Hch).
    + apply be_ext in HB. rewrite (bound_unique iso ss _ _ _ Q0 HB Q1) in Hel. congruence.
  - right. assert (S1' := S1). assert (S2' := S2).
    destruct S1' as (T1 & S1'). destruct S2' as (T2 & S2'). cbv zeta in S1', S2'.
    destruct S1' as (V1 & Q0 & Q1 & Q2 & Q3 & Q4 & Q5 & Q6 & Q7 & Q8 & a1 & a2 & a3 & a4 & a5 & a6 & a7 & a8 & Sys1 & RU1 & _).
    destruct S2' as (V2 & W0 & W1 & W2 & W3 & W4 & W5 & W6 & W7 & W8 & b1 & b2 & b3 & b4 & b5 & b6 & b7 & b8 & Sys2 & RU2 & _).
    assert (cr_V r1 = V) as RV by (unfold fresh_potential in FV; congruence). assert (cr_V r2 = V) as RV' by (unfold fresh_potential in FV'; congruence).
    assert (EEb : sw_Eb (cr_swp r1) = sw_Eb (cr_swp r2)).
    { rewrite RV in *. rewrite RV' in *. apply be_ext in W1. exact (bound_unique iso ss _ _ _ Q0 Q1 W1). }
    assert (Eos : cr_os r1 = cr_os r2) by (rewrite <- EEb in W2; congruence).
    assert (Eds : cr_ds r1 = cr_ds r2) by (apply sorted_same; [ exact Q7 | exact W7 | intros x; rewrite Q8, W8; reflexivity ]).
    assert (T := terms_same _ _ _ _ _ _ _ _ _ _ HP S1 S2 EEb Eos Eds).
    assert (HD1 := staged_dim diag mem f fb gg Jm mx iso mid ss c states Nq q pot junk vg inputs res Hmx Hodd Hss Hc Hsl HNp HNq HD A6 false r1 S1).
    assert (HD2 := staged_dim diag' mem' f fb' gg Jm mx iso mid ss c states Nq q pot junk' vg inputs res' Hmx Hodd Hss Hc Hsl HNp HNq HD B6 false r2 S2).
    destruct (solve_same (cr_sys r1) (cr_sys r2) _ _ _ _ _ _ _ _ _ _ Sys1 Sys2 HD1 HD2 a6 b6 ltac:(congruence) ltac:(congruence) ltac:(congruence) ltac:(congruence)
      getrf getrf' f fb fb' A2 B2 T (cr_U r1) (cr_U r2) (cr_UBU r1) (cr_UBU r2)) as (U & F1 & F2).
    { unfold s_nd, s_nq. rewrite a4, a5. lia. }
    { unfold s_nd, s_nq. rewrite a4, a5. rewrite RU2, <- Eos, <- Eds. lia. }
    rewrite F1, F2. cbn [obind]. do 2 eexists. split; [ reflexivity | ]. split; [ reflexivity | ]. unfold same_report. cbn [with_amplitudes cr_states cr_V cr_swp cr_os cr_ds cr_U].
    do 5 (split; [ congruence | ]). reflexivity.
Qed.
End Runs.
