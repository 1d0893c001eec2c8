From Coq Require Import Reals Lra ZifyBool.
From Verif Require Import Common ArrayLib PWModel PWSpec PWProofs PWChnProofs SwpModel GridSpec GridPropsLemmas PermPropsLemmas
  PotentialModel PotentialSpec PotentialProofs PotentialMatProofs InteractionProofs.
Open Scope Z_scope.

(* ---------- symmetry ---------- *)
Lemma sum_plus f h n : sum (fun i => f i + h i)%R n = (sum f n + sum h n)%R.
Proof. induction n as [|n IH]; [ unfold sum; cbn; ring | ]. rewrite !sum_S, IH. ring. Qed.
Lemma sum_comm f n m : sum (fun a => sum (fun b => f a b) m) n = sum (fun b => sum (fun a => f a b) n) m.
Proof.
  induction n as [|n IH].
  - unfold sum at 1. cbn. symmetry. apply sum_zero. reflexivity.
  - rewrite sum_S, IH, <- sum_plus. apply sum_ext. intros b _. rewrite sum_S. reflexivity.
Qed.
Lemma packet_swap mid g v i j : packet mid g v i j = packet mid g (fun x y => v y x) j i.
Proof.
  unfold packet, packet_midpoint, packet_quadrature. destruct mid; [ unfold Rdiv; rewrite (Rmult_comm (at_ (vg_norm g) j)); ring | ].
  rewrite sum_comm. rewrite (Rmult_comm (at_ (vg_norm g) j)). f_equal. apply sum_ext. intros a _. apply sum_ext. intros b _. ring.
Qed.

Definition hermitian (pot : potmodel) (s : pw) : Prop :=
  forall Tz qi qo cpl, exists V W,
    pot qi qo cpl (S_2N s) (J_2N s) (T_2N s) Tz = Ok V /\ pot qo qi cpl (S_2N s) (J_2N s) (T_2N s) Tz = Ok W /\ swap6 (at_ V) (at_ W).

Lemma target_swap tensor mid pot g r c i j : physical r -> physical c -> same_2N_channel tensor r c -> hermitian pot r ->
  target mid pot g r c i j = target mid pot g c r j i.
Proof.
  intros Hr Hc Hch Hh. unfold target. rewrite packet_swap. apply packet_ext. intros x y.
  destruct (chan_num tensor true 0 0 [] (fun s H => match H with end) r c Hr Hc Hch) as (Q1 & Q2 & Q3 & Q4 & Q5).
  assert (Hp : forall Tz a b, potv pot c Tz a b = potv pot r Tz a b).
  { intros Tz a b. unfold potv. rewrite <- Q4. rewrite Q1, Q2, Q3. rewrite <- Q2. reflexivity. }
  unfold interaction. rewrite !Hp, <- Q1, <- Q2, <- Q3.
  assert (We : weight_nn (T_2N r) (two_T_3N c) (two_T_3N r) = weight_nn (T_2N r) (two_T_3N r) (two_T_3N c) /\
               weight_np (T_2N r) (two_T_3N c) (two_T_3N r) = weight_np (T_2N r) (two_T_3N r) (two_T_3N c)).
  { unfold weight_nn, weight_np. rewrite !(andb_comm (two_T_3N c =? _)). auto. }
  destruct We as [-> ->]. f_equal; f_equal; unfold potv.
  - destruct (Hh (-1) y x (negb (L_2N r =? J_2N r))) as (V & W & E1 & E2 & Hs). rewrite E1, E2. apply swap_element, Hs.
  - destruct (Hh 0 y x (negb (L_2N r =? J_2N r))) as (V & W & E1 & E2 & Hs). rewrite E1, E2. apply swap_element, Hs.
Qed.


(* ---------- all channels, 1S0 with isospin breaking and the mid-point rule included ---------- *)
Section Sym.
Variables (tensor iso mid : bool) (Jm mx : Z) (pot : potmodel) (junk : R * R) (g : vgrid) (states : list pw).
Hypothesis Hst : forall s, In s states -> physical s /\ in_model_space Jm mx iso s.
Hypothesis Hcfg : tensor = true \/ (tensor = false /\ iso = false /\ Jm <= 1).
Hypothesis Hpot : pot_total pot states.
Hypothesis Hg : vgrid_ok mid g.
Let N := vg_Np g.
Lemma block_lt2 s : (block s < 2)%nat.
Proof. unfold block. destruct ((S_2N s =? 0) && (J_2N s =? 0)), (two_T_3N s =? 3), (J_2N s <? L_2N s); lia. Qed.

Definition chan_symm (key : bool * Z) (V : list R * list R) : Prop :=
  forall r c, In r states -> In c states -> matrix_of tensor iso r = (fst key, Ok (snd key)) ->
    same_2N_channel tensor r c -> coupled_via_T_3N iso r = true -> hermitian pot r ->
    forall i j, (i < N)%nat -> (j < N)%nat ->
    exists v, entry tensor iso N V r c i j = Some v /\ entry tensor iso N V c r j i = Some v.

(* V_IS_elements in the isospin-broken 1S0 channel, for every type: symmetric *)
Lemma vis_sym ty r c : In r states -> In c states -> same_2N_channel tensor r c -> coupled_via_T_3N iso r = true ->
  isoscalar_type r c = Ok ty -> mid = true ->
  exists vv : R -> R -> list R, (forall x y, vis mid pot junk true ty r c x y = Ok (vv x y) /\ length (vv x y) = 6%nat) /\
    (hermitian pot r -> forall x y, at_ (vv x y) 2 = at_ (vv y x) 2 /\ at_ (vv x y) 5 = at_ (vv y x) 5 /\ at_ (vv x y) 3 = at_ (vv y x) 4).
Proof.
  intros Hr Hc Hch Hv Hty Em. destruct (Hst r Hr) as [Hpr _]. destruct (Hst c Hc) as [Hpc _].
  destruct (cm_diag tensor iso Jm mx states Hst r c Hpr Hpc Hch) as (_ & _ & _ & Hcm).
  destruct (chan_num tensor iso Jm mx states Hst r c Hpr Hpc Hch) as (HS & HJ & _ & _ & HLL).
  pose proof (phys_cases r Hpr) as Hp. pose proof (phys_cases c Hpc) as Hp'. rewrite odd_mod in Hp.
  assert (F : S_2N r = 0 /\ J_2N r = 0 /\ L_2N r = 0 /\ T_2N r = 1) by (unfold coupled_via_T_3N in Hv; lia).
  destruct F as (F1 & F2 & F3 & F4).
  set (q := fun Tz x y => pot x y (negb (L_2N r =? J_2N r)) (S_2N r) (J_2N r) (T_2N r) Tz).
  set (ql := fun Tz x y => match q Tz x y with Ok l => l | _ => [] end).
  assert (Hq : forall Tz x y, Tz = 0 \/ Tz = -1 -> q Tz x y = Ok (ql Tz x y) /\ length (ql Tz x y) = 6%nat).
  { intros Tz x y HT. destruct (Hpot r Tz x y (negb (L_2N r =? J_2N r)) Hr ltac:(lia)) as (V & E & L).
    unfold ql. change (pot x y (negb (L_2N r =? J_2N r)) (S_2N r) (J_2N r) (T_2N r) Tz) with (q Tz x y) in E. rewrite E. auto. }
  assert (Hsw : hermitian pot r -> forall Tz x y, Tz = 0 \/ Tz = -1 -> swap6 (at_ (ql Tz x y)) (at_ (ql Tz y x))).
  { intros Hh Tz x y HT. destruct (Hh Tz x y (negb (L_2N r =? J_2N r))) as (V & W & E1 & E2 & Hs).
    destruct (Hq Tz x y HT) as [Q1 _]. destruct (Hq Tz y x HT) as [Q2 _]. unfold q in Q1, Q2. rewrite E1 in Q1. rewrite E2 in Q2.
    injection Q1 as <-. injection Q2 as <-. exact Hs. }
  destruct ty as [|[|ty]].
  - exfalso. unfold isoscalar_type in Hty. rewrite F4 in Hty.
    change (1 =? 0) with false in Hty. cbn [andb] in Hty.
    repeat match type of Hty with (if ?b then _ else _) = _ => destruct b eqn:? end; discriminate.
  - exists (fun x y => map2 (fun a b => (2 / 3) * a + (1 / 3) * b)%R (ql (-1) x y) (ql 0 x y)). split.
    + intros x y. destruct (Hq 0 x y (or_introl eq_refl)) as [E0 L0]. destruct (Hq (-1) x y (or_intror eq_refl)) as [E1 L1]. split.
      * unfold vis, vis_mid, vis_avg. rewrite Em, Hcm. unfold q in E0, E1. rewrite E1, E0. reflexivity.
      * apply (at_map2 _ _ _ 0); [ exact L1 | exact L0 | lia ].
    + intros Hh x y.
      destruct (Hq 0 x y (or_introl eq_refl)) as [_ L0]. destruct (Hq (-1) x y (or_intror eq_refl)) as [_ L1].
      destruct (Hq 0 y x (or_introl eq_refl)) as [_ L0']. destruct (Hq (-1) y x (or_intror eq_refl)) as [_ L1'].
      rewrite !(fun k H => proj2 (at_map2 (fun a b => (2 / 3) * a + (1 / 3) * b)%R (ql (-1) x y) (ql 0 x y) k L1 L0 H)) by lia.
      rewrite !(fun k H => proj2 (at_map2 (fun a b => (2 / 3) * a + (1 / 3) * b)%R (ql (-1) y x) (ql 0 y x) k L1' L0' H)) by lia.
      destruct (Hsw Hh 0 x y (or_introl eq_refl)) as (A0 & A1 & A2 & A5 & A3 & A4).
      destruct (Hsw Hh (-1) x y (or_intror eq_refl)) as (B0 & B1 & B2 & B5 & B3 & B4).
      repeat split; congruence.
  - assert (Hx : forall Tz x y, Tz = 0 \/ Tz = -1 ->
       extract (L_2N r) (L_2N c) (J_2N r) (S_2N r) false (ql Tz x y) = Ok (at_ (ql Tz x y) 0)).
    { intros Tz x y HT. rewrite extract_ok.
      - unfold element. rewrite F1. reflexivity.
      - apply Hq, HT.
      - unfold triangle; lia.
      - unfold triangle; lia.
      - lia.
      - lia. }
    exists (fun x y => let a := at_ (ql (-1) x y) 0 in let b := at_ (ql 0 x y) 0 in
      [fst junk; snd junk; (2 / 3) * a + (1 / 3) * b; (sqrt 2 / 3) * (a - b); (sqrt 2 / 3) * (a - b); (1 / 3) * a + (2 / 3) * b]%R).
    split.
    + intros x y. split; [ | reflexivity ]. unfold vis, vis_mid, vis_1S0. rewrite Em, Hcm.
      destruct (Hq 0 x y (or_introl eq_refl)) as [E0 _]. destruct (Hq (-1) x y (or_intror eq_refl)) as [E1 _].
      unfold q in E0, E1. rewrite E1, E0. cbn [obind]. rewrite !Hx by lia. reflexivity.
    + intros Hh x y.
      destruct (Hsw Hh 0 x y (or_introl eq_refl)) as (A0 & _). destruct (Hsw Hh (-1) x y (or_intror eq_refl)) as (B0 & _).
      cbv zeta. unfold at_ in *. cbn [nth]. rewrite A0, B0. repeat split; reflexivity.
Qed.

Lemma frame_symm (key key' : bool * Z) (V V' : list R * list R) :
  key' <> key -> 0 <= snd key -> 0 <= snd key' -> frame g key V V' ->
  chan_symm key' V -> chan_symm key' V'.
Proof.
  intros Hne H0 H0' Hfr Hc r c Hr Hcc Hm Hs Hv Hh i j Hi Hj.
  destruct (Hc r c Hr Hcc Hm Hs Hv Hh i j Hi Hj) as (v & E1 & E2). exists v.
  cut (entry tensor iso N V' r c i j = entry tensor iso N V r c i j /\ entry tensor iso N V' c r j i = entry tensor iso N V c r j i);
    [ intros [-> ->]; split; assumption | ]. clear E1 E2.
  destruct (Hst r Hr) as [Hpr _]. destruct (Hst c Hcc) as [Hpc _].
  assert (Hm' : matrix_of tensor iso c = (fst key', Ok (snd key'))).
  { rewrite <- Hm. symmetry. apply (mat_inj tensor iso Jm mx states Hst Hcfg r c Hpr Hpc), Hs. }
  unfold frame in Hfr. fold N in Hfr. unfold entry. rewrite Hm, Hm'. destruct key as [b z], key' as [b' z']. cbn [fst snd] in *.
  assert (Hz : b = b' -> Z.to_nat z <> Z.to_nat z') by (intros -> E; apply Hne; f_equal; lia).
  destruct b, b'; destruct Hfr as [F1 F2]; rewrite ?F1; try (split; reflexivity).
  - specialize (Hz eq_refl).
    pose proof (coup_addr_split g (Z.to_nat z') (block r) i (block c) j (block_lt2 r) (block_lt2 c) Hi Hj) as Ha.
    pose proof (coup_addr_split g (Z.to_nat z') (block c) j (block r) i (block_lt2 c) (block_lt2 r) Hj Hi) as Hb.
    fold N in Ha, Hb. split; apply F2; nia.
  - split; apply F2; apply (unco_outside tensor iso); auto.
Qed.


Definition viaT_key (key : bool * Z) : Prop := exists r, In r states /\ matrix_of tensor iso r = (fst key, Ok (snd key)) /\ mid && coupled_via_T_3N iso r = true.
Definition chan_all (key : bool * Z) (V : list R * list R) : Prop :=
  (~ viaT_key key -> chan_right tensor iso mid pot g states key V) /\ (mid = true -> chan_symm key V).

(* the isospin-broken 1S0 channel with the mid-point rule *)
Lemma fill_sym r c ty z V : mid = true -> coupled_via_T_3N iso r = true -> In r states -> In c states -> same_2N tensor r c = true ->
  isoscalar_type r c = Ok ty -> matrix_of tensor iso r = (coupled_matrix tensor iso r r, Ok z) ->
  0 <= z < (if coupled_matrix tensor iso r r then num_2N_coup_states tensor iso Jm else num_2N_unco_states tensor iso Jm) ->
  lens tensor iso Jm g V ->
  exists V', fill_channel mid pot junk (coupled_via_L_2N tensor r c) (coupled_via_T_3N iso r) (coupled_matrix tensor iso r r) ty g z r c V = Ok V' /\
    lens tensor iso Jm g V' /\ chan_symm (coupled_matrix tensor iso r r, z) V' /\ frame g (coupled_matrix tensor iso r r, z) V V'.
Proof.
  intros Em EvT Hr Hc Hs2 Hty Hm Hz [Hl1 Hl2]. destruct (Hst r Hr) as [Hpr _]. destruct (Hst c Hc) as [Hpc _].
  pose proof (pair_channel tensor iso Jm mx states Hst Hcfg r c Hpr Hpc Hs2) as Hch.
  destruct (cm_diag tensor iso Jm mx states Hst r c Hpr Hpc Hch) as (D1 & D2 & D3 & D4).
  destruct V as [Vu Vc]. cbn [fst snd] in *.
  assert (Ecm : coupled_matrix tensor iso r r = true) by (unfold coupled_matrix; rewrite EvT; apply orb_true_r).
  rewrite EvT, andb_true_r in D3. rewrite EvT, D3, Ecm in *.
  assert (Ek : Z.of_nat (Z.to_nat z) = z) by lia. rewrite <- Ek. set (k := Z.to_nat z) in *.
  destruct (vis_sym ty r c Hr Hc Hch EvT Hty Em) as (vv & Hvv & Hval).
  set (val := fun br i bc j : nat => packet mid g (fun x y => at_ (vv x y) (2 + 2 * br + bc)%nat) i j).
  destruct (fill_coup mid pot junk false true ty g k r c val Vu Vc) as (w & E & Lw & W & O).
  - intros i j Hi Hj.
    destruct (wp_elements_ok mid pot junk true ty g r c i j Hg Hi Hj vv Hvv) as (el & E & Le & He).
    exists el. split; [ exact E | ]. rewrite !aread6 by (first [ exact Le | lia ]). rewrite !He by lia. repeat split.
  - fold N in Hl2 |- *. rewrite Hl2. apply Nat.mul_le_mono_r. lia.
  - fold N in W, O. exists (Vu, w). split; [ exact E | ]. split; [ split; cbn [fst snd]; congruence | ]. rewrite ?Ek. split.
    + intros r' c' Hr' Hc' Hm' Hch' _ Hh' i j Hi Hj. cbn [fst snd] in Hm'.
      destruct (Hst r' Hr') as [Hpr' _]. destruct (Hst c' Hc') as [Hpc' _].
      assert (Hmc : matrix_of tensor iso c' = (true, Ok z)).
      { rewrite <- Hm'. symmetry. apply (mat_inj tensor iso Jm mx states Hst Hcfg r' c' Hpr' Hpc'), Hch'. }
      assert (Hrr : same_2N_channel tensor r r') by (apply (mat_inj tensor iso Jm mx states Hst Hcfg); congruence).
      assert (Hh : hermitian pot r).
      { destruct (chan_num tensor iso Jm mx states Hst r r' Hpr Hpr' Hrr) as (A1 & A2 & A3 & _).
        unfold hermitian in *. rewrite A1, A2, A3. exact Hh'. }
      unfold entry. rewrite Hm', Hmc. cbn [snd]. fold k.
      rewrite !W by (first [ apply block_lt2 | assumption ]).
      exists (val (block r') i (block c') j). split; [ reflexivity | ]. f_equal. symmetry.
      unfold val. rewrite packet_swap. apply packet_ext. intros x y. destruct (Hval Hh y x) as (S2 & S5 & S3). destruct (Hval Hh x y) as (_ & _ & S3').
      pose proof (block_lt2 r'). pose proof (block_lt2 c').
      destruct (block r') as [|[|?]]; [ | | lia ]; (destruct (block c') as [|[|?]]; [ | | lia ]); cbn [Nat.add Nat.mul]; congruence.
    + unfold frame. cbn [fst snd]. split; [ reflexivity | exact O ].
Qed.

Lemma fill_all r c ty z V : In r states -> In c states -> same_2N tensor r c = true ->
  isoscalar_type r c = Ok ty -> matrix_of tensor iso r = (coupled_matrix tensor iso r r, Ok z) ->
  0 <= z < (if coupled_matrix tensor iso r r then num_2N_coup_states tensor iso Jm else num_2N_unco_states tensor iso Jm) ->
  lens tensor iso Jm g V ->
  exists V', fill_channel mid pot junk (coupled_via_L_2N tensor r c) (coupled_via_T_3N iso r) (coupled_matrix tensor iso r r) ty g z r c V = Ok V' /\
    lens tensor iso Jm g V' /\ chan_all (coupled_matrix tensor iso r r, z) V' /\ keeps chan_all (coupled_matrix tensor iso r r, z) V V'.
Proof.
  intros Hr Hc Hs2 Hty Hm Hz Hl.
  assert (K : forall V', frame g (coupled_matrix tensor iso r r, z) V V' -> keeps chan_all (coupled_matrix tensor iso r r, z) V V').
  { intros V' Hf key' H1 H2 [K1 K2]. split.
    - intros H. apply (frame_right tensor iso mid Jm mx pot g states Hst (coupled_matrix tensor iso r r, z) key' V V' H1); [ cbn [snd]; lia | exact H2 | exact Hf | exact (K1 H) ].
    - intros H. apply (frame_symm (coupled_matrix tensor iso r r, z) key' V V' H1); [ cbn [snd]; lia | exact H2 | exact Hf | exact (K2 H) ]. }
  destruct (Hst r Hr) as [Hpr _].
  destruct (mid && coupled_via_T_3N iso r) eqn:Em.
  - apply andb_true_iff in Em. destruct Em as [Em EvT].
    destruct (fill_sym r c ty z V Em EvT Hr Hc Hs2 Hty Hm Hz Hl) as (V' & E & L & S & F).
    exists V'. split; [ exact E | ]. split; [ exact L | ]. split; [ | apply K, F ]. split; [ | intros _; exact S ].
    intros H. exfalso. apply H. exists r. split; [ exact Hr | ]. split; [ exact Hm | ]. rewrite Em, EvT. reflexivity.
  - destruct (fill_right tensor iso mid Jm mx pot junk g states Hst Hcfg Hpot Hg r c ty z V Em Hr Hc Hs2 Hty Hm Hz Hl) as (V' & E & L & S & F).
    exists V'. split; [ exact E | ]. split; [ exact L | ]. split; [ | apply K, F ]. split; [ intros _; exact S | ].
    intros Emid r' c' Hr' Hc' Hm' Hch' EvT'. exfalso. cbn [fst snd] in Hm'. destruct (Hst r' Hr') as [Hpr' _].
    assert (Hrr : same_2N_channel tensor r r') by (apply (mat_inj tensor iso Jm mx states Hst Hcfg); congruence).
    pose proof (viaT_chan tensor iso Jm mx states Hst r r' Hpr Hpr' Hrr) as X. rewrite X, EvT', Emid in Em. discriminate.
Qed.

Lemma matrices_sym V : lens tensor iso Jm g V ->
  exists V', potential_matrices tensor iso mid Jm pot junk g states (fst V) (snd V) = Ok V' /\ lens tensor iso Jm g V' /\
    forall r c, In r states -> In c states -> same_2N_channel tensor r c ->
      forall i j, (i < N)%nat -> (j < N)%nat ->
      (mid && coupled_via_T_3N iso r = false -> entry tensor iso N V' r c i j = Some (target mid pot g r c i j)) /\
      (hermitian pot r -> exists v, entry tensor iso N V' r c i j = Some v /\ entry tensor iso N V' c r j i = Some v).
Proof.
  intros HV. destruct (matrices_loop tensor iso mid Jm mx pot junk g states Hst Hcfg chan_all V HV fill_all) as (V' & E & L & H).
  exists V'. split; [ exact E | ]. split; [ exact L | ]. intros r c Hr Hc Hch i j Hi Hj.
  destruct (Hst r Hr) as [Hpr _]. destruct (Hst c Hc) as [Hpc _].
  assert (Hch' : same_2N_channel tensor c r) by (eapply (chan_sym tensor iso Jm Hcfg); exact Hch).
  destruct (H r Hr) as (key & Hm & Q1 & Q2).
  assert (NV : forall s, In s states -> same_2N_channel tensor r s -> mid && coupled_via_T_3N iso s = false -> ~ viaT_key key).
  { intros s Hs Hrs Hv (r' & Hr' & Hm' & Hv'). destruct (Hst s Hs) as [Hps _]. destruct (Hst r' Hr') as [Hpr' _].
    assert (Hrr : same_2N_channel tensor r r') by (apply (mat_inj tensor iso Jm mx states Hst Hcfg); congruence).
    pose proof (viaT_chan tensor iso Jm mx states Hst r r' Hpr Hpr' Hrr) as X1.
    pose proof (viaT_chan tensor iso Jm mx states Hst r s Hpr Hps Hrs) as X2. rewrite <- X2, X1, Hv' in Hv. discriminate. }
  assert (Hself : same_2N_channel tensor r r) by (unfold same_2N_channel; auto).
  assert (R : mid && coupled_via_T_3N iso r = false -> entry tensor iso N V' r c i j = Some (target mid pot g r c i j) /\
                entry tensor iso N V' c r j i = Some (target mid pot g c r j i)).
  { intros Hv. pose proof (Q1 (NV r Hr Hself Hv)) as HR. split; [ apply (HR r c Hr Hc Hm Hch i j Hi Hj) | ].
    apply (HR c r Hc Hr); try assumption. rewrite <- Hm. symmetry. apply (mat_inj tensor iso Jm mx states Hst Hcfg r c Hpr Hpc), Hch. }
  split; [ intros Hv; apply R, Hv | ]. intros Hh.
  destruct (mid && coupled_via_T_3N iso r) eqn:Em.
  - apply andb_true_iff in Em. destruct Em as [Em EvT]. apply (Q2 Em r c Hr Hc Hm Hch EvT Hh i j Hi Hj).
  - destruct (R eq_refl) as [R1 R2]. exists (target mid pot g r c i j). split; [ exact R1 | ]. rewrite R2. f_equal. symmetry.
    apply (target_swap tensor mid pot g r c i j Hpr Hpc Hch Hh).
Qed.
End Sym.
