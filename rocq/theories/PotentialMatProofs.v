From Coq Require Import Reals Lra ZifyBool.
From Verif Require Import Common ArrayLib PWModel PWSpec PWProofs PWChnProofs SwpModel GridSpec
  PotentialModel PotentialSpec PotentialProofs.
Ltac Zify.zify_post_hook ::= Z.div_mod_to_equations.
Open Scope Z_scope.

Lemma at_six (V : outcome (list R)) l k : V = Ok l -> six_of V k = at_ l k.
Proof. intros ->. reflexivity. Qed.

Lemma block_L J s : physical s -> S_2N s = 1 -> J_2N s = J -> L_2N s <> J -> J - 1 + 2 * Z.of_nat (block s) = L_2N s.
Proof.
  intros Ps S1 J1 L1. apply phys_cases in Ps. unfold block. rewrite S1. cbn [Z.eqb andb].
  destruct (J_2N s <? L_2N s) eqn:EE; cbn [Z.of_nat Pos.of_succ_nat]; lia.
Qed.

Section Pair.
Variables (tensor iso mid : bool) (Jm mx : Z) (pot : potmodel) (junk : R * R) (g : vgrid) (states : list pw).
Hypothesis Hst : forall s, In s states -> physical s /\ in_model_space Jm mx iso s.
Hypothesis Hcfg : tensor = true \/ (tensor = false /\ iso = false /\ Jm <= 1).
Hypothesis Hpot : pot_total pot states.
Hypothesis Hg : vgrid_ok mid g.

Lemma t3_cases s : physical s -> two_T_3N s = 1 \/ two_T_3N s = 3.
Proof. intros [_ HT _ _ _ HT3 _ _]. unfold couples in *. destruct HT3 as (_ & _ & HT3 & [m Hm]). lia. Qed.

Lemma pair_channel r c : physical r -> physical c -> same_2N tensor r c = true -> same_2N_channel tensor r c.
Proof.
  intros Hr Hc H. apply phys_cases in Hr, Hc. unfold same_2N, same_2N_channel in *. rewrite odd_mod in *.
  assert (HE : (Z.Even (L_2N r + L_2N c)) <-> (L_2N r + L_2N c) mod 2 = 0).
  { rewrite <- Z.even_spec. rewrite Zmod_even. destruct (Z.even (L_2N r + L_2N c)); lia. }
  rewrite HE. destruct tensor; cbn [andb orb] in H; lia.
Qed.

Lemma chan_num r c : physical r -> physical c -> same_2N_channel tensor r c ->
  S_2N r = S_2N c /\ J_2N r = J_2N c /\ T_2N r = T_2N c /\ (L_2N r =? J_2N r) = (L_2N c =? J_2N c) /\
  (L_2N r = L_2N c \/ (tensor = true /\ S_2N r = 1 /\ J_2N r <> 0 /\ L_2N r <> J_2N r /\ L_2N c <> J_2N r)).
Proof.
  intros Hr Hc H. apply phys_cases in Hr, Hc. unfold same_2N_channel in *. rewrite odd_mod in *.
  assert (HE : (Z.Even (L_2N r + L_2N c)) <-> (L_2N r + L_2N c) mod 2 = 0).
  { rewrite <- Z.even_spec. rewrite Zmod_even. destruct (Z.even (L_2N r + L_2N c)); lia. }
  rewrite HE in H. repeat split; try lia.
  destruct H as (H1 & H2 & H3 & [H4|[H4 H5]]); [ left; exact H4 | ].
  destruct (Z.eq_dec (L_2N r) (L_2N c)) as [E|E]; [ left; exact E | right ]. split; [ exact H4 | lia ].
Qed.

Lemma cm_diag r c : physical r -> physical c -> same_2N_channel tensor r c ->
  coupled_matrix tensor iso r c = coupled_matrix tensor iso r r /\
  coupled_via_L_2N tensor r c = coupled_via_L_2N tensor r r /\
  coupled_via_L_2N tensor r c && coupled_via_T_3N iso r = false /\
  coupled_model r c = negb (L_2N r =? J_2N r).
Proof.
  intros Hr Hc H. destruct (chan_num r c Hr Hc H) as (H1 & H2 & H3 & H4 & H5).
  apply phys_cases in Hr, Hc. rewrite odd_mod in *.
  unfold coupled_matrix, coupled_via_L_2N, coupled_via_T_3N, coupled_model.
  destruct H5 as [H5|(Ht & H5)]; [ rewrite <- !H5 | rewrite Ht ]; rewrite ?Z.eqb_refl; cbn [andb orb negb].
  - repeat split; try lia.
  - repeat split; lia.
Qed.

Lemma mat_inj r c : physical r -> physical c ->
  (matrix_of tensor iso r = matrix_of tensor iso c <-> same_2N_channel tensor r c).
Proof.
  intros Hr Hc. destruct Hcfg as [-> | (-> & -> & _)].
  - apply unique_inj_tensor; assumption.
  - apply unique_inj_notensor; assumption.
Qed.

Lemma mat_range r : physical r -> J_2N r <= Jm -> exists z, matrix_of tensor iso r = (coupled_matrix tensor iso r r, Ok z) /\
  0 <= z < if coupled_matrix tensor iso r r then num_2N_coup_states tensor iso Jm else num_2N_unco_states tensor iso Jm.
Proof.
  intros Hr HJ. destruct Hcfg as [-> | (-> & -> & HM)].
  - destruct (unique_range_tensor iso Jm r Hr HJ) as (i & Hi & Hb). exists i. unfold mat_id in *. cbn [fst snd] in *.
    unfold matrix_of. rewrite Hi. auto.
  - destruct (unique_range_notensor Jm r Hr HJ HM) as (i & Hi & Hf & Hb). exists i. unfold mat_id in *. cbn [fst snd] in *.
    unfold matrix_of. rewrite Hi, Hf. auto.
Qed.

(* twoT3 = 1 unless coupled via T_3N *)
Lemma t3_plain s : In s states -> coupled_via_T_3N iso s = false -> two_T_3N s = 1.
Proof.
  intros Hs Hv. destruct (Hst s Hs) as [Hp [_ _ H3]]. destruct (t3_cases s Hp) as [?|E]; [ assumption | ].
  destruct (H3 E) as (-> & HL & HS & HJ). unfold coupled_via_T_3N in Hv. rewrite HL, HS, HJ in Hv. discriminate.
Qed.
Lemma viaT_chan r c : physical r -> physical c -> same_2N_channel tensor r c ->
  coupled_via_T_3N iso r = coupled_via_T_3N iso c.
Proof.
  intros Hr Hc H. destruct (chan_num r c Hr Hc H) as (H1 & H2 & H3 & H4 & H5).
  apply phys_cases in Hr, Hc. rewrite odd_mod in *. unfold coupled_via_T_3N. f_equal.
  rewrite H1, H2. destruct (S_2N c =? 0) eqn:E1; [ | reflexivity ]. destruct (J_2N c =? 0) eqn:E2; [ | reflexivity ].
  cbn [andb]. lia.
Qed.

Lemma type_plain r c : In r states -> In c states -> same_2N_channel tensor r c -> coupled_via_T_3N iso r = false ->
  isoscalar_type r c = Ok (if T_2N r =? 0 then 0%nat else 1%nat).
Proof.
  intros Hr Hc H Hv. destruct (Hst r Hr) as [Hpr _]. destruct (Hst c Hc) as [Hpc _].
  pose proof (viaT_chan r c Hpr Hpc H) as Hv'. rewrite Hv in Hv'. symmetry in Hv'.
  pose proof (t3_plain r Hr Hv) as H1. pose proof (t3_plain c Hc Hv') as H2.
  unfold isoscalar_type. rewrite H1, H2. replace (1 =? 3) with false by reflexivity.
  rewrite !andb_false_r. cbn [andb orb]. rewrite !Z.eqb_refl, !andb_true_r.
  apply phys_cases in Hpr. destruct (T_2N r =? 0) eqn:E; [ reflexivity | ].
  replace (T_2N r =? 1) with true by lia. reflexivity.
Qed.
Lemma type_viaT r c : In r states -> In c states -> same_2N_channel tensor r c -> coupled_via_T_3N iso r = true ->
  exists ty, isoscalar_type r c = Ok ty.
Proof.
  intros Hr Hc H Hv. destruct (Hst r Hr) as [Hpr _]. destruct (Hst c Hc) as [Hpc _].
  destruct (t3_cases r Hpr) as [E1|E1]; destruct (t3_cases c Hpc) as [E2|E2];
  apply phys_cases in Hpr; rewrite odd_mod in Hpr; unfold coupled_via_T_3N in Hv;
  unfold isoscalar_type, state_1S0; rewrite E1, E2;
  replace (1 =? 3) with false by reflexivity; replace (3 =? 1) with false by reflexivity; rewrite !Z.eqb_refl;
  replace (S_2N r =? 0) with true by lia; replace (J_2N r =? 0) with true by lia; replace (L_2N r =? 0) with true by lia;
  cbn [andb orb]; eauto.
  replace (T_2N r =? 0) with false by lia. replace (T_2N r =? 1) with true by lia. cbn [andb]. eauto.
Qed.

(* V_IS_elements away from the isospin-broken 1S0 channel *)
Lemma vis_plain r c : In r states -> In c states -> same_2N_channel tensor r c -> coupled_via_T_3N iso r = false ->
  exists vv : R -> R -> list R, (forall x y, vis mid pot junk false (if T_2N r =? 0 then 0%nat else 1%nat) r c x y = Ok (vv x y) /\ length (vv x y) = 6%nat) /\
    forall x y k, (k < 6)%nat -> at_ (vv x y) k =
      (weight_nn (T_2N r) 1 1 * potv pot r (-1) x y k + weight_np (T_2N r) 1 1 * potv pot r 0 x y k)%R.
Proof.
  intros Hr Hc H Hv. destruct (Hst r Hr) as [Hpr _]. destruct (Hst c Hc) as [Hpc _].
  destruct (cm_diag r c Hpr Hpc H) as (_ & _ & _ & Hcm).
  pose proof (phys_cases r Hpr) as Hp.
  set (q := fun Tz x y => pot x y (negb (L_2N r =? J_2N r)) (S_2N r) (J_2N r) (T_2N r) Tz).
  set (ql := fun Tz x y => match q Tz x y with Ok l => l | _ => [] end).
  assert (Hq : forall Tz x y, Tz = 0 \/ (Tz = -1 /\ T_2N r = 1) -> q Tz x y = Ok (ql Tz x y) /\ length (ql Tz x y) = 6%nat).
  { intros Tz x y HT. destruct (Hpot r Tz x y (negb (L_2N r =? J_2N r)) Hr HT) as (V & E & L).
    unfold ql. change (pot x y (negb (L_2N r =? J_2N r)) (S_2N r) (J_2N r) (T_2N r) Tz) with (q Tz x y) in E. rewrite E. auto. }
  destruct (T_2N r =? 0) eqn:ET.
  - exists (ql 0). split.
    + intros x y. destruct (Hq 0 x y (or_introl eq_refl)) as [E L]. split; [ | exact L ].
      unfold vis, vis_mid, vis_quad, vis_np. rewrite Hcm. destruct mid; exact E.
    + intros x y k Hk. unfold weight_nn, weight_np, potv. rewrite ET.
      change (pot x y (negb (L_2N r =? J_2N r)) (S_2N r) (J_2N r) (T_2N r) 0) with (q 0 x y).
      destruct (Hq 0 x y (or_introl eq_refl)) as [E L].
      rewrite (at_six _ _ k E). ring.
  - assert (HT1 : T_2N r = 1) by lia.
    exists (fun x y => map2 (fun a b => (2 / 3) * a + (1 / 3) * b)%R (ql (-1) x y) (ql 0 x y)). split.
    + intros x y. destruct (Hq 0 x y (or_introl eq_refl)) as [E0 L0].
      destruct (Hq (-1) x y (or_intror (conj eq_refl HT1))) as [E1 L1]. split.
      * unfold vis, vis_mid, vis_quad, vis_avg. rewrite Hcm. unfold q in E0, E1. destruct mid; rewrite E1, E0; reflexivity.
      * apply (at_map2 _ _ _ 0); [ exact L1 | exact L0 | lia ].
    + intros x y k Hk. destruct (Hq 0 x y (or_introl eq_refl)) as [E0 L0].
      destruct (Hq (-1) x y (or_intror (conj eq_refl HT1))) as [E1 L1].
      rewrite (proj2 (at_map2 _ _ _ k L1 L0 Hk)). unfold weight_nn, weight_np, potv. rewrite ET. cbn [Z.eqb Pos.eqb andb].
      unfold q in E0, E1. rewrite (at_six _ _ k E0), (at_six _ _ k E1). ring.
Qed.

(* ... and in it (quadrature only) *)
Lemma vis_iso ty r c : mid = false -> In r states -> In c states -> same_2N_channel tensor r c -> coupled_via_T_3N iso r = true ->
  exists vv : R -> R -> list R, (forall x y, vis mid pot junk true ty r c x y = Ok (vv x y) /\ length (vv x y) = 6%nat) /\
    forall x y, let a := potv pot r (-1) x y 0%nat in let b := potv pot r 0 x y 0%nat in
      at_ (vv x y) 2 = (2 / 3 * a + 1 / 3 * b)%R /\ at_ (vv x y) 3 = (sqrt 2 / 3 * (a - b))%R /\
      at_ (vv x y) 4 = (sqrt 2 / 3 * (a - b))%R /\ at_ (vv x y) 5 = (1 / 3 * a + 2 / 3 * b)%R.
Proof.
  intros Em Hr Hc H Hv. destruct (Hst r Hr) as [Hpr _]. destruct (Hst c Hc) as [Hpc _].
  destruct (cm_diag r c Hpr Hpc H) as (_ & _ & _ & Hcm).
  destruct (chan_num r c Hpr Hpc H) as (HS & HJ & _ & _ & HLL).
  pose proof (phys_cases r Hpr) as Hp. pose proof (phys_cases c Hpc) as Hp'. rewrite odd_mod in Hp.
  assert (HT1 : T_2N r = 1) by (unfold coupled_via_T_3N in Hv; lia).
  assert (Hq : forall Tz x y, Tz = 0 \/ Tz = -1 -> exists l,
    pot x y (negb (L_2N r =? J_2N r)) (S_2N r) (J_2N r) (T_2N r) Tz = Ok l /\ length l = 6%nat /\
    extract (L_2N r) (L_2N c) (J_2N r) (S_2N r) false l = Ok (potv pot r Tz x y 0%nat)).
  { intros Tz x y HT. destruct (Hpot r Tz x y (negb (L_2N r =? J_2N r)) Hr) as (V & E & L); [ lia | ].
    exists V. split; [ exact E | ]. split; [ exact L | ]. rewrite extract_ok.
    - unfold element. unfold coupled_via_T_3N in Hv. replace (S_2N r =? 0) with true by lia. f_equal.
      unfold potv. rewrite E. reflexivity.
    - exact L.
    - unfold triangle; lia.
    - unfold triangle; unfold coupled_via_T_3N in Hv; lia.
    - lia.
    - unfold coupled_via_T_3N in Hv. lia. }
  exists (fun x y => let a := potv pot r (-1) x y 0%nat in let b := potv pot r 0 x y 0%nat in
    [fst junk; snd junk; (2 / 3) * a + (1 / 3) * b; (sqrt 2 / 3) * (a - b); (sqrt 2 / 3) * (a - b); (1 / 3) * a + (2 / 3) * b]%R).
  split.
  - intros x y. split; [ | reflexivity ]. unfold vis, vis_quad, vis_1S0. rewrite Em, Hcm.
    destruct (Hq (-1) x y (or_intror eq_refl)) as (l1 & E1 & L1 & X1).
    destruct (Hq 0 x y (or_introl eq_refl)) as (l0 & E0 & L0 & X0).
    rewrite E1, E0. cbn [obind]. rewrite X1, X0. reflexivity.
  - intros x y. cbv zeta. repeat split.
Qed.

Let N := vg_Np g.
Definition chan_right (key : bool * Z) (V : list R * list R) : Prop :=
  forall r c, In r states -> In c states -> matrix_of tensor iso r = (fst key, Ok (snd key)) ->
    same_2N_channel tensor r c -> forall i j, (i < N)%nat -> (j < N)%nat ->
    entry tensor iso N V r c i j = Some (target mid pot g r c i j).
Definition lens (V : list R * list R) : Prop :=
  length (fst V) = (Z.to_nat (num_2N_unco_states tensor iso Jm) * (N * N))%nat /\
  length (snd V) = (Z.to_nat (num_2N_coup_states tensor iso Jm) * (2 * N * (2 * N)))%nat.

(* the interaction of a pair depends on its channel and on L, L' (and T_3N) only *)
Lemma potv_chan r r' Tz x y : physical r -> physical r' -> same_2N_channel tensor r r' ->
  potv pot r Tz x y = potv pot r' Tz x y.
Proof.
  intros Hr Hr' H. destruct (chan_num r r' Hr Hr' H) as (H1 & H2 & H3 & H4 & _).
  unfold potv. rewrite H1, H2, H3. rewrite <- H2. rewrite H4. rewrite H2. reflexivity.
Qed.

Lemma chan_sym r c : same_2N_channel tensor r c -> same_2N_channel tensor c r.
Proof.
  unfold same_2N_channel. intros (-> & -> & -> & H). repeat split; try reflexivity.
  destruct H as [->|[-> H]]; [ left; reflexivity | right ]. split; [ reflexivity | ]. rewrite Z.add_comm. exact H.
Qed.
Lemma chan_trans a b c : physical a -> physical b -> physical c ->
  same_2N_channel tensor a b -> same_2N_channel tensor b c -> same_2N_channel tensor a c.
Proof.
  intros Ha Hb Hc. rewrite <- !mat_inj by assumption. congruence.
Qed.

Lemma unco_outside k k' i j : (i < N)%nat -> (j < N)%nat -> k <> k' ->
  ~ (k * (N * N) <= unco_addr N k' i j < (k + 1) * (N * N))%nat.
Proof. intros. unfold unco_addr. pose proof (rm_lt N N i j). nia. Qed.
Lemma block_lt s : (block s < 2)%nat.
Proof. unfold block. destruct ((S_2N s =? 0) && (J_2N s =? 0)), (two_T_3N s =? 3), (J_2N s <? L_2N s); lia. Qed.

(* entries of other channels are not touched *)
Definition frame (key : bool * Z) (V V' : list R * list R) : Prop :=
  if fst key then fst V' = fst V /\
     (forall a, ~ (Z.to_nat (snd key) * (2 * N * (2 * N)) <= a < (Z.to_nat (snd key) + 1) * (2 * N * (2 * N)))%nat ->
        nth_error (snd V') a = nth_error (snd V) a)
   else snd V' = snd V /\
     (forall a, ~ (Z.to_nat (snd key) * (N * N) <= a < (Z.to_nat (snd key) + 1) * (N * N))%nat ->
        nth_error (fst V') a = nth_error (fst V) a).
Lemma frame_right (key key' : bool * Z) (V V' : list R * list R) :
  key' <> key -> 0 <= snd key -> 0 <= snd key' -> frame key V V' ->
  chan_right key' V -> chan_right key' V'.
Proof.
  intros Hne H0 H0' Hfr Hc r c Hr Hcc Hm Hs i j Hi Hj. rewrite <- (Hc r c Hr Hcc Hm Hs i j Hi Hj).
  unfold frame in Hfr. unfold entry. rewrite Hm. destruct key as [b z], key' as [b' z']. cbn [fst snd] in *.
  assert (Hz : b = b' -> Z.to_nat z <> Z.to_nat z') by (intros -> E; apply Hne; f_equal; lia).
  destruct b, b'; destruct Hfr as [F1 F2]; rewrite ?F1; try reflexivity.
  - apply F2. pose proof (coup_addr_split g (Z.to_nat z') (block r) i (block c) j (block_lt r) (block_lt c) Hi Hj) as Ha.
    fold N in Ha. specialize (Hz eq_refl). nia.
  - apply F2. apply unco_outside; auto.
Qed.

Lemma fill_right r c ty z V : mid && coupled_via_T_3N iso r = false -> In r states -> In c states -> same_2N tensor r c = true ->
  isoscalar_type r c = Ok ty -> matrix_of tensor iso r = (coupled_matrix tensor iso r r, Ok z) ->
  0 <= z < (if coupled_matrix tensor iso r r then num_2N_coup_states tensor iso Jm else num_2N_unco_states tensor iso Jm) ->
  lens V ->
  exists V', fill_channel mid pot junk (coupled_via_L_2N tensor r c) (coupled_via_T_3N iso r) (coupled_matrix tensor iso r r) ty g z r c V = Ok V' /\
    lens V' /\ chan_right (coupled_matrix tensor iso r r, z) V' /\
    frame (coupled_matrix tensor iso r r, z) V V'.
Proof.
  intros Hmid Hr Hc Hs2 Hty Hm Hz [Hl1 Hl2]. destruct (Hst r Hr) as [Hpr _]. destruct (Hst c Hc) as [Hpc _].
  pose proof (pair_channel r c Hpr Hpc Hs2) as Hch.
  destruct (cm_diag r c Hpr Hpc Hch) as (D1 & D2 & D3 & D4).
  destruct (chan_num r c Hpr Hpc Hch) as (Q1 & Q2 & Q3 & Q4 & Q5).
  pose proof (phys_cases r Hpr) as Hp. pose proof (phys_cases c Hpc) as Hp'. rewrite odd_mod in Hp, Hp'.
  destruct V as [Vu Vc]. cbn [fst snd] in *.
  assert (Ek : Z.of_nat (Z.to_nat z) = z) by (destruct (coupled_matrix tensor iso r r); lia).
  rewrite <- Ek. set (k := Z.to_nat z) in *.
  destruct (coupled_via_T_3N iso r) eqn:EvT.
  - (* isospin-broken 1S0 *)
    assert (Ecm : coupled_matrix tensor iso r r = true) by (unfold coupled_matrix; rewrite EvT; apply orb_true_r).
    rewrite andb_true_r in D3. rewrite D3. rewrite Ecm in *.
    assert (Em : mid = false).
    { destruct mid; [ discriminate Hmid | reflexivity ]. }
    destruct (vis_iso ty r c Em Hr Hc Hch EvT) as (vv & Hvv & Hval).
    set (tgt := fun (wn wp : R) i j => packet mid g (fun x y => wn * potv pot r (-1) x y 0%nat + wp * potv pot r 0 x y 0%nat)%R i j).
    set (val := fun br i bc j : nat => match br, bc with
        | O, O => tgt (2 / 3) (1 / 3) i j | O, _ => tgt (sqrt 2 / 3) (- (sqrt 2 / 3)) i j
        | _, O => tgt (sqrt 2 / 3) (- (sqrt 2 / 3)) i j | _, _ => tgt (1 / 3) (2 / 3) i j end%R).
    destruct (fill_coup mid pot junk false true ty g k r c val Vu Vc) as (w & E & Lw & W & O).
    + intros i j Hi Hj.
      destruct (wp_elements_ok mid pot junk true ty g r c i j Hg Hi Hj vv Hvv) as (el & E & Le & He).
      exists el. split; [ exact E | ]. rewrite !aread6 by (first [ exact Le | lia ]). rewrite !He by lia.
      unfold val, tgt. repeat split; f_equal; apply packet_ext; intros x y; destruct (Hval x y) as (V2 & V3 & V4 & V5);
        rewrite ?V2, ?V3, ?V4, ?V5; ring.
    + fold N. rewrite Hl2. apply Nat.mul_le_mono_r. lia.
    + fold N in W, O. exists (Vu, w). split; [ exact E | ]. split; [ split; cbn [fst snd]; congruence | ].
      rewrite ?Ek. split.
      * intros r' c' Hr' Hc' Hm' Hch' i j Hi Hj. cbn [fst snd] in Hm'. unfold entry. rewrite Hm'. cbn [snd]. fold k.
        destruct (Hst r' Hr') as [Hpr' _]. destruct (Hst c' Hc') as [Hpc' _].
        rewrite W by (first [ apply block_lt | assumption ]). f_equal.
        assert (Hrr : same_2N_channel tensor r r') by (apply mat_inj; congruence).
        pose proof (chan_num r r' Hpr Hpr' Hrr) as (A1 & A2 & A3 & A4 & A5).
        pose proof (chan_num r' c' Hpr' Hpc' Hch') as (B1 & B2 & B3 & B4 & B5).
        assert (F : S_2N r = 0 /\ J_2N r = 0 /\ L_2N r = 0 /\ T_2N r = 1) by (unfold coupled_via_T_3N in EvT; lia).
        destruct F as (F1 & F2 & F3 & F4).
        unfold target, val, block. rewrite <- B1, <- B2, <- A1, <- A2, F1, F2. cbn [Z.eqb andb].
        unfold tgt. 
        assert (G : forall wn wp, weight_nn (T_2N r') (two_T_3N r') (two_T_3N c') = wn -> weight_np (T_2N r') (two_T_3N r') (two_T_3N c') = wp ->
          packet mid g (fun x y => (wn * potv pot r (-1) x y 0%nat + wp * potv pot r 0 x y 0%nat)%R) i j =
          packet mid g (interaction (potv pot r' (-1)) (potv pot r' 0) r' c') i j).
        { intros wn wp Ewn Ewp. apply packet_ext. intros x y. unfold interaction. rewrite Ewn, Ewp.
          rewrite !(potv_chan r r' _ x y Hpr Hpr' Hrr). unfold element. rewrite <- A1, F1. reflexivity. }
        destruct (t3_cases r' Hpr') as [T1|T1]; destruct (t3_cases c' Hpc') as [T2|T2];
          rewrite T1, T2 in G |- *; cbn [Z.eqb Pos.eqb]; apply G; unfold weight_nn, weight_np; rewrite <- A3, F4; reflexivity.
      * unfold frame. cbn [fst snd]. rewrite ?Ek. split; [ reflexivity | exact O ].
  - (* isospin conserved *)
    assert (Ety : ty = if T_2N r =? 0 then 0%nat else 1%nat).
    { rewrite (type_plain r c Hr Hc Hch EvT) in Hty. congruence. }
    subst ty. destruct (vis_plain r c Hr Hc Hch EvT) as (vv & Hvv & Hval).
    set (wn := weight_nn (T_2N r) 1 1) in *. set (wp := weight_np (T_2N r) 1 1) in *.
    assert (Tgt : forall r' c' el i j, In r' states -> In c' states -> same_2N_channel tensor r r' -> same_2N_channel tensor r' c' ->
       (forall k, (k < 6)%nat -> at_ el k = packet mid g (fun x y => at_ (vv x y) k) i j) ->
       element (at_ el) (L_2N r') (L_2N c') (S_2N r') (J_2N r') = target mid pot g r' c' i j).
    { intros r' c' el i j Hr' Hc' Hrr Hch' Hel.
      destruct (Hst r' Hr') as [Hpr' _]. destruct (Hst c' Hc') as [Hpc' _].
      pose proof (viaT_chan r r' Hpr Hpr' Hrr) as X1. pose proof (viaT_chan r' c' Hpr' Hpc' Hch') as X2.
      rewrite EvT in X1. rewrite <- X1 in X2.
      rewrite (element_packet mid g (fun x y => fun k => (wn * potv pot r (-1) x y k + wp * potv pot r 0 x y k)%R) (at_ el) (L_2N r') (L_2N c') (S_2N r') (J_2N r') i j).
      - unfold target. apply packet_ext. intros x y. rewrite element_lin. unfold interaction.
        rewrite (t3_plain r' Hr' (eq_sym X1)), (t3_plain c' Hc' (eq_sym X2)).
        rewrite !(potv_chan r r' _ x y Hpr Hpr' Hrr). unfold wn, wp.
        destruct (chan_num r r' Hpr Hpr' Hrr) as (_ & _ & -> & _). reflexivity.
      - intros k0 Hk0. rewrite Hel by exact Hk0. apply packet_ext. intros x y. apply Hval, Hk0. }
    destruct (coupled_matrix tensor iso r r) eqn:Ecm.
    + (* coupled through L *)
      assert (EvL : coupled_via_L_2N tensor r c = true).
      { rewrite D2. unfold coupled_matrix in Ecm. rewrite EvT, orb_false_r in Ecm. exact Ecm. }
      rewrite EvL.
      assert (F : S_2N r = 1 /\ L_2N r <> J_2N r /\ J_2N r <> 0 /\ tensor = true).
      { rewrite D2 in EvL. unfold coupled_via_L_2N in EvL. rewrite Z.eqb_refl in EvL. cbn [negb orb andb] in EvL.
        apply andb_true_iff in EvL. destruct EvL as [-> EvL]. repeat split; lia. }
      destruct F as (F1 & F2 & F3 & F4).
      set (elt := fun i j k => packet mid g (fun x y => at_ (vv x y) k) i j).
      set (val := fun br i bc j : nat => element (elt i j) (J_2N r - 1 + 2 * Z.of_nat br) (J_2N r - 1 + 2 * Z.of_nat bc) 1 (J_2N r)).
      destruct (fill_coup mid pot junk true false (if T_2N r =? 0 then 0%nat else 1%nat) g k r c val Vu Vc) as (w & E & Lw & W & O).
      * intros i j Hi Hj.
        destruct (wp_elements_ok mid pot junk false _ g r c i j Hg Hi Hj vv Hvv) as (el & E & Le & He).
        exists el. split; [ exact E | ].
        assert (X : forall L L', (L = J_2N r - 1 \/ L = J_2N r + 1) -> (L' = J_2N r - 1 \/ L' = J_2N r + 1) ->
          extract L L' (J_2N r) (S_2N r) true el = Ok (element (elt i j) L L' 1 (J_2N r))).
        { intros L L' HL HL'. rewrite extract_ok.
          - rewrite F1. f_equal. unfold element, elt. rewrite !He by lia. reflexivity.
          - exact Le.
          - unfold triangle; lia.
          - unfold triangle; lia.
          - lia.
          - lia. }
        unfold val. cbn [Z.of_nat Pos.of_succ_nat]. rewrite Z.mul_0_r, Z.add_0_r.
        replace (J_2N r - 1 + 2 * 1) with (J_2N r + 1) by lia.
        rewrite !X by lia. auto.
      * fold N. rewrite Hl2. apply Nat.mul_le_mono_r. lia.
      * fold N in W, O. exists (Vu, w). split; [ exact E | ]. split; [ split; cbn [fst snd]; congruence | ].
        rewrite ?Ek. split.
        -- intros r' c' Hr' Hc' Hm' Hch' i j Hi Hj. cbn [fst snd] in Hm'. unfold entry. rewrite Hm'. cbn [snd]. fold k.
           destruct (Hst r' Hr') as [Hpr' _]. destruct (Hst c' Hc') as [Hpc' _].
           rewrite W by (first [ apply block_lt | assumption ]). f_equal.
           assert (Hrr : same_2N_channel tensor r r') by (apply mat_inj; congruence).
           destruct (wp_elements_ok mid pot junk false _ g r c i j Hg Hi Hj vv Hvv) as (el & _ & _ & He).
           rewrite <- (Tgt r' c' el i j Hr' Hc' Hrr Hch' He).
           pose proof (chan_num r r' Hpr Hpr' Hrr) as (A1 & A2 & A3 & A4 & A5).
           pose proof (chan_num r' c' Hpr' Hpc' Hch') as (B1 & B2 & B3 & B4 & B5).
           pose proof (phys_cases r' Hpr') as P1. pose proof (phys_cases c' Hpc') as P2.
           assert (L1 : L_2N r' <> J_2N r) by (clear - A2 A4 F2; rewrite <- A2 in A4; intros E0; rewrite E0, Z.eqb_refl in A4; apply Z.eqb_neq in F2; congruence).
           assert (L2 : L_2N c' <> J_2N r) by (clear - B2 B4 A2 L1; rewrite <- B2, <- A2 in B4; intros E0; rewrite E0, Z.eqb_refl in B4; apply Z.eqb_neq in L1; congruence).
           unfold val. rewrite (block_L (J_2N r) r' Hpr' ltac:(congruence) (eq_sym A2) L1).
           rewrite (block_L (J_2N r) c' Hpc' ltac:(congruence) ltac:(congruence) L2).
           unfold element. rewrite <- A1, F1. rewrite <- A2. unfold elt. rewrite !He by lia. reflexivity.
        -- unfold frame. cbn [fst snd]. rewrite ?Ek. split; [ reflexivity | exact O ].
    + (* uncoupled *)
      set (elt := fun i j k => packet mid g (fun x y => at_ (vv x y) k) i j).
      set (val := fun i j : nat => element (elt i j) (L_2N r) (L_2N c) (S_2N r) (J_2N r)).
      assert (LL : L_2N r = L_2N c).
      { destruct Q5 as [?|(Ht & Q5)]; [ assumption | exfalso ]. unfold coupled_matrix, coupled_via_L_2N in Ecm.
        rewrite Ht in Ecm. rewrite Z.eqb_refl in Ecm. cbn [negb orb andb] in Ecm. lia. }
      destruct (fill_unco mid pot junk (coupled_via_L_2N tensor r c) false (if T_2N r =? 0 then 0%nat else 1%nat) g k r c val Vu Vc) as (w & E & Lw & W & O).
      * intros i j Hi Hj.
        destruct (wp_elements_ok mid pot junk false _ g r c i j Hg Hi Hj vv Hvv) as (el & E & Le & He).
        exists el. split; [ exact E | ]. rewrite extract_ok.
        -- f_equal. unfold val, element, elt. rewrite !He by lia. reflexivity.
        -- exact Le.
        -- unfold triangle; lia.
        -- unfold triangle; lia.
        -- lia.
        -- exact LL.
      * fold N. rewrite Hl1. apply Nat.mul_le_mono_r. lia.
      * fold N in W, O. exists (w, Vc). split; [ exact E | ]. split; [ split; cbn [fst snd]; congruence | ].
        rewrite ?Ek. split.
        -- intros r' c' Hr' Hc' Hm' Hch' i j Hi Hj. cbn [fst snd] in Hm'. unfold entry. rewrite Hm'. cbn [fst]. fold k.
           destruct (Hst r' Hr') as [Hpr' _]. destruct (Hst c' Hc') as [Hpc' _].
           rewrite W by assumption. f_equal.
           assert (Hrr : same_2N_channel tensor r r') by (apply mat_inj; congruence).
           destruct (wp_elements_ok mid pot junk false _ g r c i j Hg Hi Hj vv Hvv) as (el & _ & _ & He).
           rewrite <- (Tgt r' c' el i j Hr' Hc' Hrr Hch' He).
           pose proof (chan_num r r' Hpr Hpr' Hrr) as (A1 & A2 & A3 & A4 & A5).
           pose proof (chan_num r' c' Hpr' Hpc' Hch') as (B1 & B2 & B3 & B4 & B5).
           pose proof (phys_cases r' Hpr') as P1. pose proof (phys_cases c' Hpc') as P2.
           assert (NC : ~ (tensor = true /\ S_2N r = 1 /\ J_2N r <> 0 /\ L_2N r <> J_2N r)).
           { clear - Ecm. intros (Ht & N1 & N2 & N3). unfold coupled_matrix, coupled_via_L_2N in Ecm.
             rewrite Ht in Ecm. rewrite Z.eqb_refl in Ecm. cbn [negb orb andb] in Ecm.
             apply Z.eqb_neq in N2, N3. rewrite N2, N3 in Ecm. discriminate Ecm. }
           assert (L1 : L_2N r' = L_2N r) by (destruct A5 as [?|A5]; [ congruence | exfalso; apply NC; tauto ]).
           assert (L2 : L_2N c' = L_2N r) by (destruct B5 as [?|B5]; [ congruence | exfalso; apply NC; rewrite A1, A2, <- L1; tauto ]).
           unfold val, element. rewrite L1, L2, <- LL, <- A1, <- A2. unfold elt. rewrite !He by lia. reflexivity.
        -- unfold frame. cbn [fst snd]. rewrite ?Ek. split; [ reflexivity | exact O ].
Qed.

(* ---------- the double loop over partial waves ---------- *)
Lemma vkey_eqb_eq a b : vkey_eqb a b = true <-> a = b.
Proof.
  destruct a as [x y], b as [x' y']. unfold vkey_eqb. cbn [fst snd]. rewrite andb_true_iff, eqb_true_iff, Z.eqb_eq.
  split; [ intros [-> ->]; reflexivity | intros H; injection H as -> ->; auto ].
Qed.

Definition keeps (Q : bool * Z -> list R * list R -> Prop) (key : bool * Z) (V V' : list R * list R) : Prop :=
  forall key', key' <> key -> 0 <= snd key' -> Q key' V -> Q key' V'.
Lemma matrices_loop (Q : bool * Z -> list R * list R -> Prop) V : lens V ->
  (forall r c ty z V, In r states -> In c states -> same_2N tensor r c = true ->
     isoscalar_type r c = Ok ty -> matrix_of tensor iso r = (coupled_matrix tensor iso r r, Ok z) ->
     0 <= z < (if coupled_matrix tensor iso r r then num_2N_coup_states tensor iso Jm else num_2N_unco_states tensor iso Jm) ->
     lens V ->
     exists V', fill_channel mid pot junk (coupled_via_L_2N tensor r c) (coupled_via_T_3N iso r) (coupled_matrix tensor iso r r) ty g z r c V = Ok V' /\
       lens V' /\ Q (coupled_matrix tensor iso r r, z) V' /\ keeps Q (coupled_matrix tensor iso r r, z) V V') ->
  exists V', potential_matrices tensor iso mid Jm pot junk g states (fst V) (snd V) = Ok V' /\ lens V' /\
    forall r, In r states -> exists key, matrix_of tensor iso r = (fst key, Ok (snd key)) /\ Q key V'.
Proof.
  intros HV Hfill. unfold potential_matrices.
  destruct (ofold_inv (fun (d : list (pw * pw)) (s : vstate) =>
      lens (fst s) /\ (forall key, In key (snd s) -> 0 <= snd key /\ Q key (fst s)) /\
      (forall r c, In (r, c) d -> same_2N tensor r c = true -> exists z, matrix_of tensor iso r = (coupled_matrix tensor iso r r, Ok z) /\
           In (coupled_matrix tensor iso r r, z) (snd s)))
    (pot_step tensor iso mid pot junk (num_2N_unco_states tensor iso Jm) (num_2N_coup_states tensor iso Jm) g)
    (flat_map (fun r => map (fun c => (r, c)) states) states) ((fst V, snd V), [])) as (s & E & Hl & Hk & Hd).
  - split; [ destruct V; exact HV | ]. split; [ intros key [] | intros r c [] ].
  - intros d [r c] rest s Hsplit (Hl & Hk & Hd).
    assert (Hin : In r states /\ In c states).
    { assert (Hx : In (r, c) (flat_map (fun r => map (fun c => (r, c)) states) states))
        by (rewrite Hsplit; apply in_or_app; right; left; reflexivity).
      apply in_flat_map in Hx. destruct Hx as (r' & Hr' & Hx). apply in_map_iff in Hx. destruct Hx as (c' & Hx & Hc').
      injection Hx as -> ->. auto. }
    destruct Hin as [Hr Hc]. destruct (Hst r Hr) as [Hpr Hms]. destruct (Hst c Hc) as [Hpc _].
    unfold pot_step. destruct (same_2N tensor r c) eqn:Es2.
    2:{ exists s. split; [ reflexivity | ]. split; [ exact Hl | ]. split; [ exact Hk | ].
        intros r' c' Hx Hy. apply in_app_iff in Hx. destruct Hx as [Hx|[Hx|[]]]; [ apply (Hd r' c' Hx Hy) | ].
        injection Hx as <- <-. congruence. }
    pose proof (pair_channel r c Hpr Hpc Es2) as Hch.
    destruct (cm_diag r c Hpr Hpc Hch) as (D1 & D2 & D3 & D4).
    assert (Hty : exists ty, isoscalar_type r c = Ok ty).
    { destruct (coupled_via_T_3N iso r) eqn:EvT; [ apply type_viaT; assumption | ].
      eexists. apply type_plain; assumption. }
    destruct Hty as (ty & Hty). rewrite Hty. cbn [obind]. cbv zeta. rewrite D3, D1.
    destruct (mat_range r Hpr (ms_J _ _ _ _ Hms)) as (z & Hm & Hz).
    assert (Hu : unique_2N_idx tensor iso (coupled_matrix tensor iso r r) (L_2N r) (S_2N r) (J_2N r) (T_2N r) = Ok z)
      by (unfold matrix_of in Hm; congruence).
    rewrite Hu. cbn [obind].
    set (cm := coupled_matrix tensor iso r r) in *.
    replace ((z <? 0) || ((if cm then num_2N_coup_states tensor iso Jm else num_2N_unco_states tensor iso Jm) <=? z))
      with false by (destruct cm; lia).
    destruct (existsb (vkey_eqb (cm, z)) (snd s)) eqn:Ex.
    + exists s. split; [ reflexivity | ]. split; [ exact Hl | ]. split; [ exact Hk | ].
      intros r' c' Hx Hy. apply in_app_iff in Hx. destruct Hx as [Hx|[Hx|[]]]; [ apply (Hd r' c' Hx Hy) | ].
      injection Hx as <- <-. exists z. split; [ exact Hm | ]. apply existsb_exists in Ex. destruct Ex as (key & Hk' & Hq).
      apply vkey_eqb_eq in Hq. fold cm. rewrite Hq. exact Hk'.
    + destruct (Hfill r c ty z (fst s) Hr Hc Es2 Hty Hm Hz Hl) as (V' & EV & Hl' & Hnew & Hold). fold cm in EV, Hnew, Hold.
      rewrite EV. cbn [obind]. eexists. split; [ reflexivity | ]. cbn [fst snd]. split; [ exact Hl' | ]. split.
      * intros key Hkey. apply in_app_iff in Hkey. destruct Hkey as [Hkey|[<-|[]]].
        -- destruct (Hk key Hkey) as [K1 K2]. split; [ exact K1 | ]. apply Hold; [ | exact K1 | exact K2 ].
           intros ->. assert (existsb (vkey_eqb (cm, z)) (snd s) = true) by
             (apply existsb_exists; exists (cm, z); split; [ exact Hkey | apply vkey_eqb_eq; reflexivity ]). congruence.
        -- split; [ cbn; destruct cm; lia | exact Hnew ].
      * intros r' c' Hx Hy. apply in_app_iff in Hx. destruct Hx as [Hx|[Hx|[]]].
        -- destruct (Hd r' c' Hx Hy) as (z' & M' & I'). exists z'. split; [ exact M' | apply in_or_app; left; exact I' ].
        -- injection Hx as <- <-. exists z. split; [ exact Hm | ]. apply in_or_app. right. left. reflexivity.
  - rewrite E. cbn [obind]. exists (fst s). split; [ reflexivity | ]. split; [ exact Hl | ].
    intros r Hr.
    assert (Hself : same_2N tensor r r = true).
    { unfold same_2N. rewrite !Z.eqb_refl, Z.sub_diag, orb_true_r. reflexivity. }
    destruct (Hd r r) as (z & Hm & Hin).
    { apply in_flat_map. exists r. split; [ exact Hr | ]. apply in_map_iff. exists r. auto. }
    { exact Hself. }
    destruct (Hk _ Hin) as [_ HR]. exists (coupled_matrix tensor iso r r, z). split; [ exact Hm | exact HR ].
Qed.
End Pair.
