(* C92: the result of a channel does not depend on anything but its physical input. *)
From Coq Require Import Reals Lra Lia Sorted Classical.
From Verif Require Import Common ArrayLib PWModel PWSpec PWPropsLemmas PWChnProofs SwpModel SwpSpec SparseModel GridSpec GridPropsLemmas PermModel PermSpec PermWholeSpec
  KernelModel KernelSpec KernelColProofs KernelPropsLemmas PotentialModel PotentialSpec ResolventModel SwpWholeModel SwpWholeSpec SpectralSpec SpectralFinal OnShellModel OnShellSpec
  FaddeevModel FaddeevSpec DetModel DenseModel PadeSpec AgsSpec ChainModel ChainSpec ChainProofs ChainFinal UniqueProofs DetermineProofs.
Open Scope nat_scope.

Lemma sorted_same (l m : list nat) : StronglySorted lt l -> StronglySorted lt m -> (forall x, In x l <-> In x m) -> l = m.
Proof.
  intros Hl. revert m. induction Hl as [|a l Hl IH Ha]; intros m Hm He.
  - destruct m as [|b m]; [ reflexivity | ]. exfalso. apply (He b). left. reflexivity.
  - destruct Hm as [|b m Hm Hb]; [ exfalso; apply (He a); left; reflexivity | ]. rewrite Forall_forall in Ha, Hb.
    assert (a = b) as ->.
    { destruct (proj1 (He a) (or_introl eq_refl)) as [E|E]; [ congruence | ]. destruct (proj2 (He b) (or_introl eq_refl)) as [E'|E']; [ congruence | ].
      specialize (Ha _ E'). specialize (Hb _ E). lia. }
    f_equal. apply IH; [ exact Hm | ]. intros x. specialize (He x). cbn [In] in He. split; intros Hx.
    + destruct (proj1 He (or_intror Hx)) as [->|H]; [ specialize (Ha _ Hx); lia | exact H ].
    + destruct (proj2 He (or_intror Hx)) as [->|H]; [ specialize (Hb _ Hx); lia | exact H ].
Qed.

(* eigenvalues without degeneracy are determined *)
Lemma spectrum_unique n A w z w' z' : eigen_decomposition n A w z -> eigen_decomposition n A w' z' -> increasing w -> increasing w' -> w = w'.
Proof.
  intros (L1 & _ & _ & E1 & O1) (L2 & _ & _ & E2 & O2) I1 I2. apply (nth_ext _ _ 0%R 0%R); [ congruence | ]. rewrite L1.
  apply (proj1 (unique_basis n A (fun y k => nth (y * n + k) z 0%R) (fun y k => nth (y * n + k) z' 0%R) (fun k => nth k w 0%R) (fun k => nth k w' 0%R)
    (fun _ _ => True) (fun x => x) O1 O2 E1 E2 (fun _ _ _ _ _ => I) (fun _ _ _ _ _ => I) (fun _ _ _ _ _ => I) (fun _ _ _ _ _ _ _ _ => I) (fun _ _ _ _ _ E => E)
    (fun x y _ Hy _ Hxy => I1 x y (conj Hxy (eq_ind_r (fun m => y < m) Hy L1))) (fun x y _ Hy _ Hxy => I2 x y (conj Hxy (eq_ind_r (fun m => y < m) Hy L2))))).
Qed.

Section Two.
Variables (gg Jm mx : Z) (iso mid : bool) (ss : statespace) (c : Z) (states : list pw) (Nq : nat) (q : list R) (pot : potmodel) (vg : vgrid).
Notation Np := (vg_Np vg).
Notation p := (vg_pWP vg).
Notation N := (length states).
Notation D := (length states * Nq * vg_Np vg).
Hypothesis Hmx : (1 <= mx)%Z.
Hypothesis Hodd : Z.Odd mx.
Hypothesis Hss : construct_symmetric_pw_states_g gg Jm mx iso = Ok ss.
Hypothesis Hc : (0 <= c < ss_N_chn ss)%Z.
Hypothesis Hsl : channel_slice ss c = Ok states.
Hypothesis Hmid : mid = false \/ iso = false.
Hypothesis Hpot : hermitian_model pot (ss_states ss).
Hypothesis Hg : vgrid_ok mid vg.
Hypothesis HNp : 3 <= Np.
Hypothesis HNq : 1 <= Nq.
Hypothesis Hq : partition_from_zero Nq q.

Lemma states_ok : (forall s, In s states <-> (physical s /\ in_model_space Jm mx iso s) /\ chn_of s = nth_chn c) /\ NoDup states.
Proof. exact (slice_states gg Jm mx iso ss c states Hmx Hodd Hss Hc Hsl). Qed.

Lemma potential_unique junk junk' Vu Vc Vu' Vc' V V' :
  length Vu = Np * Np * Z.to_nat (num_2N_unco_states true iso Jm) -> length Vc = Np * Np * 4 * Z.to_nat (num_2N_coup_states true iso Jm) ->
  length Vu' = Np * Np * Z.to_nat (num_2N_unco_states true iso Jm) -> length Vc' = Np * Np * 4 * Z.to_nat (num_2N_coup_states true iso Jm) ->
  potential_matrices true iso mid Jm pot junk vg (ss_states ss) Vu Vc = Ok V -> potential_matrices true iso mid Jm pot junk' vg (ss_states ss) Vu' Vc' = Ok V' -> V = V'.
Proof.
  intros L1 L2 L3 L4 EV EV'.
  destruct (potential_all gg Jm mx iso mid ss pot junk vg Hmx Hss Hmid Hpot Hg Vu Vc L1 L2) as (W & EW & LW & _ & _ & TW). assert (W = V) as -> by congruence.
  destruct (potential_all gg Jm mx iso mid ss pot junk' vg Hmx Hss Hmid Hpot Hg Vu' Vc' L3 L4) as (W' & EW' & LW' & _ & _ & TW'). assert (W' = V') as -> by congruence.
  assert (H : forall cm, pick cm V = pick cm V').
  { intros cm. apply (nth_ext _ _ 0%R 0%R); [ rewrite LW, LW'; reflexivity | ]. intros k Hk. rewrite LW in Hk. set (n := dim2 cm Np) in *.
    assert (Hn : 0 < n) by (destruct n; lia). rewrite Nat.mul_comm in Hk.
    destruct (rm_surj (num_channels iso Jm cm) (n * n) k Hk) as (i & r & Hi & Hr & ->). destruct (rm_surj n n r Hr) as (x & y & Hx & Hy & ->).
    replace (i * (n * n) + (x * n + y)) with (i * n * n + x * n + y) by lia. unfold n in *. rewrite (TW cm i x y Hi Hx Hy), (TW' cm i x y Hi Hx Hy). reflexivity. }
  destruct V, V'. assert (H1 := H false). assert (H2 := H true). cbn [pick fst snd] in H1, H2. congruence.
Qed.

Lemma bound_unique spec Eb Eb' : (forall cm i, is_channel iso (ss_states ss) cm i -> bound_states_ok (is_deuteron_channel iso (ss_states ss) cm i) (spec cm i)) ->
  bound_energy iso (ss_states ss) spec Eb -> bound_energy iso (ss_states ss) spec Eb' -> Eb = Eb'.
Proof.
  intros HB [H1 H2] [H3 H4]. destruct (classic (exists cm i, is_deuteron_channel iso (ss_states ss) cm i)) as [(cm & i & Hd)|Hn].
  - destruct (H1 cm i Hd) as [A1 A2]. destruct (H3 cm i Hd) as [A3 A4].
    assert (Hch : is_channel iso (ss_states ss) cm i) by (destruct Hd as (s & Hs & Em & _); exists s; auto).
    destruct (proj1 (HB cm i Hch) Hd) as (k & Hk & _ & Ho).
    destruct (In_nth _ _ 0%R A2) as (k1 & Hk1 & E1). destruct (In_nth _ _ 0%R A4) as (k2 & Hk2 & E2).
    assert (k1 = k) by (destruct (Nat.eq_dec k1 k); [ assumption | specialize (Ho k1 Hk1 ltac:(assumption)); lra ]).
    assert (k2 = k) by (destruct (Nat.eq_dec k2 k); [ assumption | specialize (Ho k2 Hk2 ltac:(assumption)); lra ]). congruence.
  - rewrite H2, H4; [ reflexivity | intros cm i Hd; apply Hn; eauto | intros cm i Hd; apply Hn; eauto ].
Qed.

(* the amplitudes are determined by the physics *)
Lemma amplitudes_unique V3 P1 P2 Eb Es bins ds U1 U2 C lam edge :
  amplitudes_of states Nq Np p q V3 P1 Eb Es bins ds U1 -> amplitudes_of states Nq Np p q V3 P2 Eb Es bins ds U2 ->
  same_below D P1 P2 -> (forall j, j < length Es -> nth j bins 0 < Nq) -> (forall i, In i ds -> i < N /\ is_deuteron (nth i states dummy_pw)) ->
  wave_packets states Nq Np p V3 Eb C lam edge ->
  forall dr dc j, dr < length ds -> dc < length ds -> j < length Es ->
    ags_regular D (kernel_2PV states Nq Np P1 V3) (averaged_resolvent states Nq Np q C edge (nth j Es 0 + Eb)%R) ->
    nth (dr * length ds * length Es + dc * length Es + j) U1 c0 = nth (dr * length ds * length Es + dc * length Es + j) U2 c0.
Proof.
  intros (C1 & lam1 & edge1 & HW1 & HU1) (C2 & lam2 & edge2 & HW2 & HU2) HP Hb Hds HW dr dc j Hdr Hdc Hj Hreg. destruct states_ok as [Hst HN]. cbv zeta in HU1, HU2.
  set (E := (nth j Es 0 + Eb)%R) in *.
  assert (R1 := resolvents_equal iso Jm mx (nth_chn c) Nq Np states p q V3 Eb Hst HN HNp HNq C C1 lam lam1 edge edge1 HW HW1 E).
  assert (R2 := resolvents_equal iso Jm mx (nth_chn c) Nq Np states p q V3 Eb Hst HN HNp HNq C C2 lam lam2 edge edge2 HW HW2 E).
  assert (KK : same_below D (kernel_2PV states Nq Np P1 V3) (kernel_2PV states Nq Np P2 V3)).
  { intros x y Hx Hy. unfold kernel_2PV, two_PV. apply sum_ext. intros z Hz. rewrite (HP x z Hx Hz). reflexivity. }
  assert (Refl : same_below D (kernel_2PV states Nq Np P1 V3) (kernel_2PV states Nq Np P1 V3)) by (intros x y _ _; reflexivity).
  destruct (HU1 dr dc j Hdr Hdc Hj (regular_same D _ _ _ _ Refl R1 Hreg)) as (T1 & S1 & Q1 & ->).
  destruct (HU2 dr dc j Hdr Hdc Hj (regular_same D _ _ _ _ KK R2 Hreg)) as (T2 & S2 & _ & ->).
  destruct (Hds (nth dr ds 0) (nth_In _ _ Hdr)) as [I1 D1]. destruct (Hds (nth dc ds 0) (nth_In _ _ Hdc)) as [I2 D2]. assert (Hbj := Hb j Hj).
  rewrite <- (between_equal iso Jm mx (nth_chn c) Nq Np states p V3 Eb Hst HN HNp HNq C1 C2 lam1 lam2 edge1 edge2 HW1 HW2 T2 (nth j bins 0) _ _ Hbj I1 I2 D1 D2).
  symmetry. apply Q1; [ | apply idx3_lt; cbn; lia | apply idx3_lt; cbn; lia ].
  apply (solution_same D _ _ _ _ T2 (sb_sym _ _ _ KK) (fun x y Hx Hy => eq_trans (eq_sym (R2 x y Hx Hy)) (R1 x y Hx Hy)) S2).
Qed.

Lemma channel_no cm i : is_channel iso (ss_states ss) cm i -> i < num_channels iso Jm cm.
Proof.
  intros (s & Hs & Em). destruct (table_phys gg Jm mx iso ss s Hss Hs) as [P J].
  destruct (numbering_tensor iso Jm s s P P J) as (_ & (z & Ez & Bz) & _). rewrite Em in Ez, Bz. cbn [fst snd] in Ez, Bz.
  assert (z = Z.of_nat i) by congruence. subst z. unfold num_channels. destruct cm; lia.
Qed.
Lemma bound_energy_ext spec spec' Eb : (forall cm i, is_channel iso (ss_states ss) cm i -> spec cm i = spec' cm i) ->
  bound_energy iso (ss_states ss) spec Eb -> bound_energy iso (ss_states ss) spec' Eb.
Proof.
  intros H [H1 H2]. split; [ | exact H2 ]. intros cm i Hd.
  assert (Hch : is_channel iso (ss_states ss) cm i) by (destruct Hd as (s & Hs & Em & _); exists s; auto).
  rewrite <- (H cm i Hch). apply H1. exact Hd.
Qed.
End Two.
