(* C93: one three-nucleon channel with the iterative solver. *)
From Coq Require Import Reals Lra Lia Sorted ZifyBool FunctionalExtensionality.
From Verif Require Import Common ArrayLib PWModel PWSpec PWPropsLemmas SwpModel SwpSpec SparseModel GridSpec PermWholeSpec
  KernelModel KernelSpec PotentialModel PotentialSpec ResolventModel SwpWholeModel SwpWholeSpec SpectralSpec OnShellModel OnShellSpec
  FaddeevModel FaddeevSpec DetModel DenseModel PadeSpec AgsSpec FaddeevLink FaddeevStatements FaddeevSolveProofs ChainModel ChainSpec ChainFinal IterSpec.
From Verif Require GeoPropsLemmas ReproExample.
Open Scope nat_scope.

Lemma report_length p l U U' : report p l U = Ok U' -> length U' = length U.
Proof.
  unfold report. revert U. induction l as [|e l IH]; intros U E; cbn [ofold] in E; [ injection E as <-; reflexivity | ].
  destruct (pread (p_best p) (e_idx e)) as [b| | |]; try discriminate E. cbn [obind] in E.
  destruct (aread (p_pa p) (e_idx e * (NM_max + 1) + b)) as [x| | |]; try discriminate E. cbn [obind] in E.
  destruct (awrite U (e_idx e) x) as [U1| | |] eqn:EW; try discriminate E. cbn [obind] in E. rewrite (IH _ E). destruct (awrite_inv _ _ _ _ EW) as (_ & L & _). exact L.
Qed.
Lemma solve_length det m s U UBU U' UBU' : pade_method_solve det m s U UBU = Ok (U', UBU') -> length U' = length U /\ length UBU' = length UBU.
Proof.
  unfold pade_method_solve. destruct (chunking _) as [[nc nch]| | |]; try discriminate. cbn [obind].
  destruct (pade_run _ _ _ _ _) as [v| | |]; try discriminate. cbn [obind].
  destruct (report (v_el v) _ U) as [U1| | |] eqn:E1; try discriminate. cbn [obind].
  destruct (report (v_bu v) _ UBU) as [U2| | |] eqn:E2; try discriminate. cbn [obind].
  intros [= <- <-]. split; eapply report_length; eassumption.
Qed.
(* some interval of a partition of 0 .. n, n > 0, contains 0 *)
Lemma first_interval (f : nat -> nat) m : f 0 = 0 -> (forall k, k < m -> f k <= f (k + 1)) -> 0 < f m -> exists k, k < m /\ f k <= 0 < f (k + 1).
Proof.
  intros H0 Hm. induction m as [|m IH]; intros H; [ lia | ]. destruct (Nat.eq_dec (f m) 0) as [E|E].
  - exists m. rewrite Nat.add_1_r. lia.
  - destruct (IH (fun k Hk => Hm k ltac:(lia)) ltac:(lia)) as (k & Hk & Hf). exists k. lia.
Qed.

Section Iter.
Variables (diag : nat -> list R -> list R * list R) (sort_indexes : list Z -> list nat)
  (mem : nat -> nat -> list R) (cmem : nat -> nat -> list cdouble) (pmem : nat -> nat -> list ptr) (getrf : getrf_t) (f fb : nat -> cdouble)
  (gg Jm mx : Z) (iso mid : bool) (ss : statespace) (c : Z) (states : list pw) (Nq : nat) (q : list R)
  (pot : potmodel) (junk : R * R) (vg : vgrid) (inputs : list R) (res : list (Z * Z * R)).
Notation Np := (vg_Np vg).
Notation p := (vg_pWP vg).
Notation N := (length states).
Notation D := (length states * Nq * vg_Np vg).
Hypothesis Msort : forall keys, sort_indexes_contract keys (sort_indexes keys).
Hypothesis Mgetrf : getrf_contract getrf.
Hypothesis Mm : allocates mem.
Hypothesis Mc : allocates cmem.
Hypothesis Mp' : allocates pmem.
Hypothesis Hmx : (1 <= mx)%Z.
Hypothesis Hodd : Z.Odd mx.
Hypothesis Hss : construct_symmetric_pw_states_g gg Jm mx iso = Ok ss.
Hypothesis Hc : (0 <= c < ss_N_chn ss)%Z.
Hypothesis Hsl : channel_slice ss c = Ok states.
Hypothesis Hmid : mid = false \/ iso = false.
Hypothesis Hpot : hermitian_model pot (ss_states ss).
Hypothesis Hg : vgrid_ok mid vg.
Hypothesis HNp : 3 <= Np.
Hypothesis HNq : 1 <= Nq.
Hypothesis Hq : partition_from_zero Nq q.
Hypothesis HD : (Z.of_nat D <= 2 ^ 28)%Z.
Hypothesis Hres : forall row col v, In (row, col, v) res -> (0 <= row < Z.of_nat D)%Z /\ (0 <= col < Z.of_nat D)%Z.
Hypothesis Hdiag : forall V, fresh_potential mem iso mid Jm pot junk vg (ss_states ss) = Ok V ->
  solves diag Np p V (num_channels iso Jm) /\
  forall cm i, is_channel iso (ss_states ss) cm i -> let w := fst (spectrum diag Np p V cm i) in
    increasing w /\ forall k, k < dim2 cm Np -> nth k w 0%R <> 0%R /\ (- (Mn + Mp) < nth k w 0)%R.
Notation det := (determinant getrf).
Notation V3 := (potential3 mid pot vg states).
Notation P := (fun i j => PermWholeSpec.entry res (Z.of_nat i) (Z.of_nat j)).
Notation stage bu := (channel_stages diag sort_indexes mem cmem pmem bu iso mid Jm Nq q pot junk vg ss c inputs res).
Notation run bu := (channel_iterate diag sort_indexes mem cmem pmem det (Some f, Some fb) bu iso mid Jm Nq q pot junk vg ss c inputs res).

Notation err := (stops_because diag mem Jm iso mid ss states Nq q pot junk vg inputs).
Notation ub := (cell_off_grid diag mem Jm iso mid ss states Nq q pot junk vg inputs).
Notation ok bu r := (channel_report diag mem Jm iso mid ss states Nq q pot junk vg inputs bu P r).

(* the boundaries in the amplitudes are those the program keeps *)
Definition linked (bu : bool) (r : chan_result) : Prop := exists C lam edge,
  iterated_with states Nq Np p q V3 P (sw_Eb (cr_swp r)) (os_E (cr_os r)) (os_idx (cr_os r)) (cr_ds r) (cr_U r)
    (if bu then Some (fst (cr_bu r), snd (cr_bu r), cr_UBU r) else None) C lam edge /\
  pair_boundaries iso Np (fst (sw_e (cr_swp r))) (snd (sw_e (cr_swp r))) states edge /\
  (forall t, In t (fst (cr_bu r)) -> (0 <= fst (fst t) < Z.of_nat N)%Z) /\ (- (Mn + Mp) < sw_Eb (cr_swp r))%R.
Lemma Dpos : 1 <= D.
Proof.
  destruct (GeoPropsLemmas.channel_ok gg Jm mx iso ss c states Hmx Hodd Hss Hc Hsl) as [Hne _]. destruct states; [ contradiction | ]. cbn [length]. nia.
Qed.
Lemma staged_solved bu r U UBU : staged diag mem Jm mx iso mid ss c states Nq q pot junk vg inputs res bu r ->
  pade_method_solve det (Some f, Some fb) (cr_sys r) (cr_U r) (cr_UBU r) = Ok (U, UBU) -> ok bu (with_amplitudes r U UBU) /\ linked bu (with_amplitudes r U UBU).
Proof.
  intros (R1 & HR) E. cbv zeta in HR. destruct (solve_length _ _ _ _ _ _ _ E) as [LU LB].
  destruct HR as (R2 & R3 & R4 & R5 & R6 & R7 & R8 & R9 & R10 & R11 & S1 & S2 & S3 & S4 & S5 & S6 & S7 & S8 & Sys & RU & RB & C & lam & edge & HW & HB & HL & HT & _).
  cut (linked bu (with_amplitudes r U UBU)).
  { intros HK. split; [ | exact HK ]. destruct HK as (C' & lam' & edge' & HK & _).
    unfold channel_report. cbn [with_amplitudes cr_states cr_V cr_swp cr_os cr_ds cr_U cr_UBU cr_bu cr_sys] in HK |- *. split; [ exact R1 | ]. cbv zeta.
    do 7 (split; [ assumption | ]). split; [ congruence | ]. split; [ rewrite LB; exact RB | ]. do 3 (split; [ assumption | ]). exists C', lam', edge'. exact HK. }
  assert (HDs : (1 <= zn (s_D (cr_sys r)) <= 2 ^ 28)%Z) by (unfold s_D; rewrite S1, S2, S3; pose proof Dpos; unfold zn; lia).
  destruct (st_breakup_run _ _ _ _ _ _ _ _ _ Sys getrf Mgetrf HDs f fb _ _ _ _ E) as [HEl HBr].
  assert (Lnq : s_nq (cr_sys r) = length (os_T (cr_os r))) by (unfold s_nq; rewrite S4; exact R8).
  assert (Lnd : s_nd (cr_sys r) = length (cr_ds r)) by (unfold s_nd; rewrite S5; reflexivity).
  assert (Row : forall dr j, j < length (os_T (cr_os r)) -> row_state (cr_sys r) (dr * length (os_T (cr_os r)) + j) = idx3 Nq Np (nth dr (cr_ds r) 0, nth j (os_idx (cr_os r)) 0, 0) /\
      (dr * length (os_T (cr_os r)) + j) mod length (os_T (cr_os r)) = j).
  { intros dr j Hj. assert (M : (dr * length (os_T (cr_os r)) + j) mod length (os_T (cr_os r)) = j) by (rewrite Nat.add_comm, Nat.mod_add by lia; apply Nat.mod_small; lia).
    assert (Dv : (dr * length (os_T (cr_os r)) + j) / length (os_T (cr_os r)) = dr) by (rewrite Nat.div_add_l by lia; rewrite Nat.div_small by lia; lia).
    split; [ | exact M ]. unfold row_state. rewrite S2, S3, S4, S5, Lnq, M, Dv. reflexivity. }
  exists C, lam, edge. cbn [with_amplitudes cr_states cr_V cr_swp cr_os cr_ds cr_U cr_UBU cr_bu cr_sys]. split; [ | exact HL ].
  unfold iterated_with. cbv zeta. rewrite R7. split; [ exact HW | ]. split.
  - intros dr dc j Hdr Hdc Hj. set (e := mkelt (dr * length (cr_ds r) * length (os_T (cr_os r)) + dc * length (os_T (cr_os r)) + j) (dr * length (os_T (cr_os r)) + j)
      (idx3 Nq Np (nth dc (cr_ds r) 0, nth j (os_idx (cr_os r)) 0, 0))).
    assert (He : elastic (cr_sys r) e).
    { exists dr, dc, j. rewrite Lnd, Lnq, S2, S3, S4, S5. repeat split; assumption. }
    destruct (HEl e He) as (b & NM & X1 & X2). destruct (Row dr j Hj) as [W1 W2].
    match goal with |- resummed ?a _ => assert (EA : (fun k => term (cr_sys r) (kernel_matrix (cr_sys r) true iso states (cr_V r) (sw_C (cr_swp r))) k e) = a) end.
    { apply functional_extensionality. intros n. rewrite (HT n e (or_introl He)). cbn [e e_row e_col]. rewrite W1, W2. reflexivity. }
    rewrite EA in X1, X2. exists b, NM. split; [ exact X1 | exact X2 ].
  - destruct bu; [ | exact I ]. split; [ exact (HB eq_refl) | ]. intros dr j b a iq ip Hdr Hj Hb Hcell Hv.
    assert (Lc : length (s_cells (cr_sys r)) = length (fst (cr_bu r))) by (symmetry; exact (F2_len _ _ _ S8)).
    assert (Ecell : nth b (s_cells (cr_sys r)) (0, 0, 0) = (a, iq, ip)).
    { assert (Hlt : b < length (fst (cr_bu r))) by (apply nth_error_Some; congruence).
      assert (En : nth_error (s_cells (cr_sys r)) b = Some (nth b (s_cells (cr_sys r)) (0, 0, 0))) by (apply nth_error_nth'; lia).
      assert (F := F2_nth _ _ _ b _ _ S8 Hcell En). cbv beta in F. destruct Hv as (V1 & V2 & V3').
      rewrite (solver_cell_grid N Nq Np) in F by (unfold in_grid; cbn [fst snd]; lia). cbn [fst snd] in F. rewrite !Nat2Z.id in F. congruence. }
    set (e := mkelt (dr * length (fst (cr_bu r)) + b) (dr * length (os_T (cr_os r)) + j) (idx3 Nq Np (a, iq, ip))).
    assert (He : breakup (cr_sys r) e).
    { split; [ exact S6 | ]. exists dr, j, b. rewrite Lnd, Lnq, S2, S3, S7, Ecell. unfold s_nBU. rewrite Lc. repeat split; try assumption; lia. }
    destruct (HBr e He) as (b' & NM & X1 & X2). destruct (Row dr j Hj) as [W1 W2].
    match goal with |- resummed ?a _ => assert (EA : (fun k => term (cr_sys r) (kernel_matrix (cr_sys r) true iso states (cr_V r) (sw_C (cr_swp r))) k e) = a) end.
    { apply functional_extensionality. intros n. rewrite (HT n e (or_intror He)). cbn [e e_row e_col]. rewrite W1, W2. reflexivity. }
    rewrite EA in X1, X2. exists b', NM. split; [ exact X1 | exact X2 ].
Qed.

Lemma all_stages bu : (stage bu = Err /\ err bu) \/ (stage bu = UB /\ bu = true /\ ub) \/
  exists r, stage bu = Ok r /\ staged diag mem Jm mx iso mid ss c states Nq q pot junk vg inputs res bu r.
Proof.
  assert (HD31 : (Z.of_nat D < 2 ^ 31)%Z) by (eapply Z.le_lt_trans; [ exact HD | reflexivity ]).
  exact (stages diag sort_indexes mem cmem pmem gg Jm mx iso mid ss c states Nq q pot junk vg inputs res Msort Mm Mc Mp' Hmx Hodd Hss Hc Hsl Hmid Hpot Hg HNp HNq Hq
    HD31 Hres Hdiag bu).
Qed.
Lemma staged_dim bu r : staged diag mem Jm mx iso mid ss c states Nq q pot junk vg inputs res bu r -> (1 <= zn (s_D (cr_sys r)) <= 2 ^ 28)%Z.
Proof.
  intros (_ & HR). cbv zeta in HR. destruct HR as (_ & _ & _ & _ & _ & _ & _ & _ & _ & _ & S1 & S2 & S3 & _). unfold s_D. rewrite S1, S2, S3. pose proof Dpos. unfold zn. lia.
Qed.

(* without breakup *)
Lemma elastic_after r : stage false = Ok r -> exists U UBU, run false = Ok (with_amplitudes r U UBU) /\ ok false (with_amplitudes r U UBU).
Proof.
  intros E. destruct (all_stages false) as [[E' H]|[[E' _]|(r' & E' & H)]]; [ congruence | congruence | ]. assert (r' = r) as -> by congruence.
  unfold channel_iterate; rewrite E; cbn [obind].
  assert (HDs := staged_dim false r H). assert (H' := H). destruct H' as (_ & HR). cbv zeta in HR.
  destruct HR as (_ & _ & _ & _ & _ & R7 & R8 & _ & _ & _ & S1 & S2 & S3 & S4 & S5 & S6 & _ & _ & Sys & RU & _).
  assert (HLU : length (cr_U r) = s_nd (cr_sys r) * s_nd (cr_sys r) * s_nq (cr_sys r)) by (unfold s_nd, s_nq; rewrite S4, S5; lia).
  destruct (st_elastic _ _ _ _ _ _ _ _ _ Sys getrf Mgetrf HDs f fb (cr_U r) (cr_UBU r) S6 HLU) as (U' & EU & _).
  rewrite EU. cbn [obind]. do 2 eexists. split; [ reflexivity | ]. exact (proj1 (staged_solved false r _ _ H EU)).
Qed.
Lemma elastic_run : (run false = Err /\ err false) \/ exists r, run false = Ok r /\ ok false r.
Proof.
  destruct (all_stages false) as [[E H]|[[_ [Hb _]]|(r & E & H)]]; [ | discriminate Hb | ].
  - unfold channel_iterate; rewrite E; cbn [obind]. left. split; [ reflexivity | exact H ].
  - right. destruct (elastic_after r E) as (U & UBU & E1 & H1). eauto.
Qed.
(* the language's view *)
Lemma strict_run bu sb r : run bu = Ok r -> 0 < length (cr_ds r) -> 0 < length (os_T (cr_os r)) ->
  channel_iterate diag sort_indexes mem cmem pmem det (None, sb) bu iso mid Jm Nq q pot junk vg ss c inputs res = UB.
Proof.
  unfold channel_iterate. destruct (all_stages bu) as [[E H]|[[E _]|(r' & E & H)]]; rewrite E; cbn [obind]; try discriminate.
  destruct (pade_method_solve det (Some f, Some fb) _ _ _) as [[U UBU]| | |]; try discriminate. cbn [obind]. intros [= <-]. cbn [with_amplitudes cr_ds cr_os]. intros H1 H2.
  assert (HDs := staged_dim bu r' H). destruct H as (_ & HR). cbv zeta in HR.
  destruct HR as (_ & _ & _ & _ & _ & R7 & R8 & _ & _ & _ & S1 & S2 & S3 & S4 & S5 & S6 & _ & _ & Sys & RU & _).
  rewrite (strict_ub _ _ _ _ _ _ _ _ _ Sys HDs det sb (cr_U r') (cr_UBU r')); [ reflexivity | unfold s_nd; rewrite S5; exact H1 | unfold s_nq; rewrite S4, R8; exact H2 ].
Qed.

(* with breakup *)
Lemma breakup_run : (run true = Err /\ err true) \/
  (run true = UB /\ (ub \/ exists r, stage true = Ok r /\
     (length (os_T (cr_os r)) < length (cr_ds r) /\ fst (cr_bu r) <> [] \/ stopped_early det (Some f, Some fb) r))) \/
  exists r, run true = Ok r /\ ok true r /\ linked true r.
Proof.
  destruct (all_stages true) as [[E H]|[[E H]|(r & E & H)]]; unfold channel_iterate; rewrite E; cbn [obind].
  - left. split; [ reflexivity | exact H ].
  - right; left. split; [ reflexivity | left; exact (proj2 H) ].
  - right. assert (HDs := staged_dim true r H). assert (H' := H). destruct H' as (_ & HR). cbv zeta in HR.
    destruct HR as (_ & _ & _ & _ & _ & R7 & R8 & _ & _ & _ & S1 & S2 & S3 & S4 & S5 & S6 & S7 & S8 & Sys & RU & RB & C & lam & edge & _ & HB & _).
    assert (Lnq : s_nq (cr_sys r) = length (os_T (cr_os r))) by (unfold s_nq; rewrite S4; exact R8).
    assert (Lnd : s_nd (cr_sys r) = length (cr_ds r)) by (unfold s_nd; rewrite S5; reflexivity).
    assert (Lc : s_nBU (cr_sys r) = length (fst (cr_bu r))) by (symmetry; exact (F2_len _ _ _ S8)).
    assert (HLU : length (cr_U r) = s_nd (cr_sys r) * s_nd (cr_sys r) * s_nq (cr_sys r)) by (rewrite Lnd, Lnq; lia).
    destruct (Classical_Prop.classic (length (os_T (cr_os r)) < length (cr_ds r) /\ fst (cr_bu r) <> [])) as [[Q1 Q2]|Q].
    + left. assert (EB : pade_method_solve det (Some f, Some fb) (cr_sys r) (cr_U r) (cr_UBU r) = UB).
      { apply (small_array _ _ _ _ _ _ _ _ _ Sys HDs); [ exact S6 | lia | | rewrite RB; lia ].
        destruct (HB eq_refl) as (B1 & B2 & B3 & B4).
        destruct (first_interval (fun k => nth k (snd (cr_bu r)) 0) (length (os_E (cr_os r))) B2) as (j & Hj & Hf).
        { intros k Hk. apply (B4 k (nth k (os_E (cr_os r)) 0%R)). apply nth_error_nth'. exact Hk. }
        { rewrite B3. destruct (fst (cr_bu r)); [ contradiction | cbn; lia ]. }
        exists (mkelt (0 * s_nBU (cr_sys r) + 0) (0 * s_nq (cr_sys r) + j) (idx3 (s_Nq (cr_sys r)) (s_Np (cr_sys r)) (nth 0 (s_cells (cr_sys r)) (0, 0, 0)))).
        apply (breakup_in _ _ _ _ _ _ _ _ _ Sys). split; [ exact S6 | ]. exists 0, j, 0. rewrite S7. cbv beta in Hf. repeat split; lia. }
      rewrite EB. cbn [obind]. split; [ reflexivity | ]. right. exists r. split; [ reflexivity | left; auto ].
    + assert (HLB : s_nd (cr_sys r) * s_nBU (cr_sys r) <= length (cr_UBU r)).
      { rewrite RB, Lnd, Lc. destruct (fst (cr_bu r)) as [|x l] eqn:El; [ cbn; lia | ]. apply Nat.mul_le_mono_r.
        destruct (le_lt_dec (length (cr_ds r)) (length (os_T (cr_os r)))) as [Hle|Hlt]; [ exact Hle | ]. exfalso. apply Q. split; [ exact Hlt | discriminate ]. }
      destruct (st_run _ _ _ _ _ _ _ _ _ Sys HDs getrf Mgetrf f fb (cr_U r) (cr_UBU r) S6 HLU HLB) as (nc & nch & v & Ec & Ev & G1 & G2).
      destruct (Classical_Prop.classic ((exists e, elastic (cr_sys r) e /\ nth (e_idx e) (p_conv (v_el v)) false = false) \/
          (exists e, breakup (cr_sys r) e /\ nth (e_idx e) (p_conv (v_bu v)) false = false))) as [Hs|Hs].
      * left. destruct (G2 Hs) as [Cn EB]. rewrite EB. cbn [obind]. split; [ reflexivity | ]. right. exists r. split; [ reflexivity | right ].
        exists nc, nch, v. split; [ exact Ec | ]. split; [ exact Ev | ]. split; [ rewrite Cn, Lnd, Lnq; reflexivity | exact Hs ].
      * right. destruct G1 as (U' & UBU' & EU & _).
        { split; intros e He.
          - destruct (nth (e_idx e) (p_conv (v_el v)) false) eqn:Ex; [ reflexivity | ]. exfalso. apply Hs. left. eauto.
          - destruct (nth (e_idx e) (p_conv (v_bu v)) false) eqn:Ex; [ reflexivity | ]. exfalso. apply Hs. right. eauto. }
        rewrite EU. cbn [obind]. eexists. split; [ reflexivity | ]. exact (staged_solved true r _ _ H EU).
Qed.
End Iter.
