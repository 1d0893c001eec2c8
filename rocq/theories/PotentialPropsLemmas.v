From Coq Require Import Reals Lra ZifyBool.
From Verif Require Import Common ArrayLib PWModel PWSpec PWChnProofs PWPropsLemmas SwpModel GridSpec GridPropsLemmas PermPropsLemmas
  PotentialModel PotentialSpec PotentialProofs PotentialMatProofs InteractionProofs.
From Verif Require Export PotentialSymProofs.
Open Scope Z_scope.

Lemma pick L L' J S (cpl : bool) V : length V = 6%nat ->
  (~ (triangle L S J /\ triangle L' S J) -> extract L L' J S cpl V = Err) /\
  (triangle L S J -> triangle L' S J -> 0 <= S <= 1 -> (if cpl then S = 1 /\ L <> J /\ L' <> J else L = L') ->
   extract L L' J S cpl V = Ok (element (at_ V) L L' S J)).
Proof. intros HV. split; [ apply extract_err | intros; apply extract_ok; assumption ]. Qed.

Lemma extract_swap L L' J S (cpl : bool) V W : length V = 6%nat -> length W = 6%nat -> swap6 (at_ V) (at_ W) -> 0 <= S <= 1 ->
  (if cpl then S = 1 /\ L <> J /\ L' <> J else L = L') -> extract L L' J S cpl V = extract L' L J S cpl W.
Proof.
  intros HV HW Hs HS Hc.
  destruct (Z.le_gt_cases (Z.abs (L - S)) J) as [A1|A1]; [ | rewrite !extract_err by (unfold triangle; lia); reflexivity ].
  destruct (Z.le_gt_cases J (L + S)) as [A2|A2]; [ | rewrite !extract_err by (unfold triangle; lia); reflexivity ].
  destruct (Z.le_gt_cases (Z.abs (L' - S)) J) as [A3|A3]; [ | rewrite !extract_err by (unfold triangle; lia); reflexivity ].
  destruct (Z.le_gt_cases J (L' + S)) as [A4|A4]; [ | rewrite !extract_err by (unfold triangle; lia); reflexivity ].
  rewrite !extract_ok; try assumption; try (unfold triangle; lia).
  - f_equal. apply swap_element, Hs.
  - destruct cpl; [ tauto | congruence ].
Qed.

Lemma lo_hermitian z wz qi qo cpl S J T Tz : length wz = length z -> 0 <= J <= 100 ->
  exists V W, LO_internal z wz qi qo cpl S J T Tz = Ok V /\ LO_internal z wz qo qi cpl S J T Tz = Ok W /\
    forall L L' (c : bool), 0 <= S <= 1 -> (if c then S = 1 /\ L <> J /\ L' <> J else L = L') ->
      extract L L' J S c V = extract L' L J S c W.
Proof.
  intros Hl HJ. exists (lo6 z wz MN qi qo J), (lo6 z wz MN qo qi J). rewrite !lo_ok by assumption. repeat split.
  intros L L' c HS Hc. apply extract_swap; try assumption; try reflexivity. apply lo_swap.
Qed.
Lemma lo_beyond z wz qi qo cpl S J T Tz : length wz = length z -> (0 < length z)%nat -> 101 <= J ->
  LO_internal z wz qi qo cpl S J T Tz = UB.
Proof.
  intros Hl Hz HJ. unfold LO_internal. destruct (legendre_table_ok (100 + 1) z ltac:(lia)) as (tab & E & Ht & HT). rewrite E. cbn [obind].
  unfold lo_internal, opep.
  assert (U : forall J' l1, 102 <= J' -> ang_integral tab z wz qi qo J' l1 = UB).
  { intros J' l1 HJ'. unfold ang_integral. rewrite Hl. destruct (length z) as [|n]; [ lia | ]. cbn [seq ofold].
    unfold fetch_root, zread. replace (J' <? 0) with false by lia. unfold aread at 1.
    replace (nth_error tab (Z.to_nat J')) with (@None (list R)); [ reflexivity | ]. symmetry. apply nth_error_None. lia. }
  destruct (Z.eq_dec J 101) as [->|Hne].
  - rewrite !(ang_ok z wz (100 + 1) tab) by (first [ assumption | lia ]). cbn [obind]. rewrite U by lia. reflexivity.
  - rewrite U by lia. reflexivity.
Qed.
Lemma mt_hermitian qi qo cpl S J T Tz :
  exists V W, malfliet_tjon qi qo cpl S J T Tz = Ok V /\ malfliet_tjon qo qi cpl S J T Tz = Ok W /\
    forall L L' (c : bool), 0 <= S <= 1 -> (if c then S = 1 /\ L <> J /\ L' <> J else L = L') ->
      extract L L' J S c V = extract L' L J S c W /\
      (forall v, extract L L' J S c V = Ok v -> v <> 0%R -> L = 0 /\ L' = 0).
Proof.
  assert (Ln : forall a b, length (mt6 a b J) = 6%nat) by (intros; unfold mt6; destruct (J =? 0), (J =? 1); reflexivity).
  exists (mt6 qi qo J), (mt6 qo qi J). rewrite !mt_ok. split; [ reflexivity | ]. split; [ reflexivity | ].
  intros L L' c HS Hc. split; [ apply extract_swap; try assumption; try apply Ln; apply mt_swap | ].
  intros v Hv Hn.
  assert (Ht : triangle L S J /\ triangle L' S J).
  { destruct (Z.le_gt_cases (Z.abs (L - S)) J) as [A1|A1]; [ | rewrite extract_err in Hv by (unfold triangle; lia); discriminate ].
    destruct (Z.le_gt_cases J (L + S)) as [A2|A2]; [ | rewrite extract_err in Hv by (unfold triangle; lia); discriminate ].
    destruct (Z.le_gt_cases (Z.abs (L' - S)) J) as [A3|A3]; [ | rewrite extract_err in Hv by (unfold triangle; lia); discriminate ].
    destruct (Z.le_gt_cases J (L' + S)) as [A4|A4]; [ | rewrite extract_err in Hv by (unfold triangle; lia); discriminate ].
    unfold triangle; lia. }
  destruct Ht as [T1 T2]. rewrite extract_ok in Hv by (first [ apply Ln | assumption ]). injection Hv as <-.
  unfold element, mt6, triangle in *. destruct (J =? 0) eqn:E0; [ | destruct (J =? 1) eqn:E1 ].
  - destruct (S =? 0) eqn:ES; [ lia | ]. exfalso. apply Hn.
    destruct (L =? L'), (L =? J), (L =? J - 1), (L <? L'); unfold at_; cbn [nth]; lra.
  - destruct (S =? 0) eqn:ES; [ exfalso; apply Hn; reflexivity | ].
    destruct (L =? L') eqn:EL.
    + destruct (L =? J) eqn:EJ; [ exfalso; apply Hn; reflexivity | ].
      destruct (L =? J - 1) eqn:EM; [ lia | exfalso; apply Hn; reflexivity ].
    + exfalso; apply Hn. destruct (L <? L'); unfold at_; cbn [nth]; lra.
  - exfalso; apply Hn. unfold six0, at_. destruct (S =? 0), (L =? L'), (L =? J), (L =? J - 1), (L <? L'); cbn [nth]; lra.
Qed.

(* ---------- tables ---------- *)
Lemma tables_ok gg Jm mx iso ss : construct_symmetric_pw_states_g gg Jm mx iso = Ok ss ->
  forall s, In s (ss_states ss) -> physical s /\ in_model_space Jm mx iso s.
Proof. intros H s Hs. exact (PWPropsLemmas.sound gg Jm mx iso ss H s Hs). Qed.

Lemma matrices gg Jm mx iso ss tensor mid pot junk g Vu Vc :
  construct_symmetric_pw_states_g gg Jm mx iso = Ok ss ->
  tensor = true \/ (tensor = false /\ iso = false /\ Jm <= 1) ->
  pot_total pot (ss_states ss) -> vgrid_ok mid g ->
  length Vu = (Z.to_nat (num_2N_unco_states tensor iso Jm) * (vg_Np g * vg_Np g))%nat ->
  length Vc = (Z.to_nat (num_2N_coup_states tensor iso Jm) * (2 * vg_Np g * (2 * vg_Np g)))%nat ->
  exists V, potential_matrices tensor iso mid Jm pot junk g (ss_states ss) Vu Vc = Ok V /\
    length (fst V) = length Vu /\ length (snd V) = length Vc /\
    forall r c, In r (ss_states ss) -> In c (ss_states ss) -> same_2N_channel tensor r c ->
      forall i j, (i < vg_Np g)%nat -> (j < vg_Np g)%nat ->
      (mid = false \/ iso = false \/ ~ (S_2N r = 0 /\ J_2N r = 0) ->
       entry tensor iso (vg_Np g) V r c i j = Some (target mid pot g r c i j)) /\
      (hermitian pot r -> exists v, entry tensor iso (vg_Np g) V r c i j = Some v /\ entry tensor iso (vg_Np g) V c r j i = Some v).
Proof.
  intros Hss Hcfg Hpot Hg L1 L2.
  destruct (matrices_sym tensor iso mid Jm mx pot junk g (ss_states ss) (tables_ok gg Jm mx iso ss Hss) Hcfg Hpot Hg (Vu, Vc))
    as (V & E & [A B] & H).
  - split; assumption.
  - exists V. split; [ exact E | ]. split; [ congruence | ]. split; [ congruence | ].
    intros r c Hr Hc Hch i j Hi Hj. destruct (H r c Hr Hc Hch i j Hi Hj) as [H1 H2]. split; [ | exact H2 ].
    intros Hm. apply H1. unfold coupled_via_T_3N. destruct Hm as [->|[->|Hm]]; [ reflexivity | rewrite !andb_false_r; reflexivity | ].
    destruct (S_2N r =? 0) eqn:E1; [ | cbn; apply andb_false_r ]. destruct (J_2N r =? 0) eqn:E2; [ | cbn; apply andb_false_r ].
    exfalso. apply Hm. lia.
Qed.

Lemma matrices_target gg Jm mx iso ss tensor mid pot junk g Vu Vc :
  construct_symmetric_pw_states_g gg Jm mx iso = Ok ss ->
  tensor = true \/ (tensor = false /\ iso = false /\ Jm <= 1) ->
  pot_total pot (ss_states ss) -> vgrid_ok mid g ->
  length Vu = (Z.to_nat (num_2N_unco_states tensor iso Jm) * (vg_Np g * vg_Np g))%nat ->
  length Vc = (Z.to_nat (num_2N_coup_states tensor iso Jm) * (2 * vg_Np g * (2 * vg_Np g)))%nat ->
  exists V, potential_matrices tensor iso mid Jm pot junk g (ss_states ss) Vu Vc = Ok V /\
    length (fst V) = length Vu /\ length (snd V) = length Vc /\
    forall r c, In r (ss_states ss) -> In c (ss_states ss) -> same_2N_channel tensor r c ->
      mid = false \/ iso = false \/ ~ (S_2N r = 0 /\ J_2N r = 0) ->
      forall i j, (i < vg_Np g)%nat -> (j < vg_Np g)%nat ->
      entry tensor iso (vg_Np g) V r c i j = Some (target mid pot g r c i j).
Proof.
  intros Hss Hcfg Hpot Hg L1 L2.
  destruct (matrices gg Jm mx iso ss tensor mid pot junk g Vu Vc Hss Hcfg Hpot Hg L1 L2) as (V & E & A & B & H).
  exists V. do 3 (split; [ assumption | ]). intros r c Hr Hc Hch Hm i j Hi Hj. apply (H r c Hr Hc Hch i j Hi Hj), Hm.
Qed.

Lemma symmetric_matrices gg Jm mx iso ss tensor mid pot junk g Vu Vc :
  construct_symmetric_pw_states_g gg Jm mx iso = Ok ss ->
  tensor = true \/ (tensor = false /\ iso = false /\ Jm <= 1) ->
  pot = malfliet_tjon \/ (exists z wz, pot = LO_internal z wz /\ length wz = length z /\ Jm <= 100) -> vgrid_ok mid g ->
  length Vu = (Z.to_nat (num_2N_unco_states tensor iso Jm) * (vg_Np g * vg_Np g))%nat ->
  length Vc = (Z.to_nat (num_2N_coup_states tensor iso Jm) * (2 * vg_Np g * (2 * vg_Np g)))%nat ->
  exists V, potential_matrices tensor iso mid Jm pot junk g (ss_states ss) Vu Vc = Ok V /\
    forall r c, In r (ss_states ss) -> In c (ss_states ss) -> same_2N_channel tensor r c ->
      forall i j, (i < vg_Np g)%nat -> (j < vg_Np g)%nat -> exists v,
      entry tensor iso (vg_Np g) V r c i j = Some v /\ entry tensor iso (vg_Np g) V c r j i = Some v.
Proof.
  intros Hss Hcfg Hpot Hg L1 L2.
  pose proof (tables_ok gg Jm mx iso ss Hss) as Ht.
  assert (Hh : forall s, In s (ss_states ss) -> hermitian pot s).
  { intros s Hs. destruct (Ht s Hs) as [Hp [HJ _ _]]. apply phys_cases in Hp. intros Tz qi qo cpl.
    destruct Hpot as [->|(z & wz & -> & Hl & HM)].
    - exists (mt6 qi qo (J_2N s)), (mt6 qo qi (J_2N s)). rewrite !mt_ok. repeat split; apply mt_swap.
    - exists (lo6 z wz MN qi qo (J_2N s)), (lo6 z wz MN qo qi (J_2N s)). rewrite !lo_ok by (first [ assumption | lia ]).
      repeat split; apply lo_swap. }
  assert (Htot : pot_total pot (ss_states ss)).
  { intros s Tz x y cpl Hs _. destruct (Ht s Hs) as [Hp [HJ _ _]]. apply phys_cases in Hp.
    destruct Hpot as [->|(z & wz & -> & Hl & HM)].
    - eexists. split; [ apply mt_ok | ]. unfold mt6. destruct (J_2N s =? 0), (J_2N s =? 1); reflexivity.
    - eexists. split; [ apply lo_ok; [ exact Hl | lia ] | reflexivity ]. }
  destruct (matrices gg Jm mx iso ss tensor mid pot junk g Vu Vc Hss Hcfg Htot Hg L1 L2) as (V & E & _ & _ & H).
  exists V. split; [ exact E | ]. intros r c Hr Hc Hch i j Hi Hj.
  apply (H r c Hr Hc Hch i j Hi Hj). apply Hh, Hr.
Qed.

(* ---------- the mid-point rule with isospin breaking ---------- *)
(* a model acting in 1S0 only, the same for nn and np *)
Definition only_1S0 : potmodel := fun _ _ _ _ J _ _ => Ok (if J =? 0 then [1; 0; 0; 0; 0; 0]%R else six0).
Definition grid1 : vgrid := mkvgrid 1 1 [0; 1]%R [1]%R [1]%R [1]%R [1]%R.
Lemma midpoint_iso_wrong :
  exists ss V r, construct_symmetric_pw_states_g 0 0 1 true = Ok ss /\
    potential_matrices true true true 0 only_1S0 (0, 0)%R grid1 (ss_states ss) [0]%R [0; 0; 0; 0]%R = Ok V /\
    In r (ss_states ss) /\ L_2N r = 0 /\ S_2N r = 0 /\ J_2N r = 0 /\
    entry true true 1 V r r 0 0 = Some 0%R /\ target true only_1S0 grid1 r r 0 0 = 1%R.
Proof.
  set (ss := match construct_symmetric_pw_states_g 0 0 1 true with Ok s => s | _ => mkss [] [] 0 end).
  assert (Hss : construct_symmetric_pw_states_g 0 0 1 true = Ok ss) by (vm_compute; reflexivity).
  exists ss. vm_compute in ss. 
  assert (HV : exists V, potential_matrices true true true 0 only_1S0 (0, 0)%R grid1 (ss_states ss) [0]%R [0; 0; 0; 0]%R = Ok V /\
     exists a b c d, snd V = [a; b; c; d] /\ a = 0%R).
  { unfold ss. eexists. split.
    - cbv -[Rplus Rmult Rinv Ropp IZR Rdiv sqrt Rminus]. reflexivity.
    - do 4 eexists. split; [ reflexivity | ]. field. }
  destruct HV as (V & EV & a & b & c & d & Ea & ->). exists V, (mkpw 0 0 0 1 0 1 1 1 1).
  split; [ exact Hss | ]. split; [ exact EV | ]. split; [ left; reflexivity | ]. do 3 (split; [ reflexivity | ]). split.
  - unfold entry. replace (matrix_of true true (mkpw 0 0 0 1 0 1 1 1 1)) with (true, Ok 0) by reflexivity. rewrite Ea. reflexivity.
  - unfold target, packet, packet_midpoint, interaction, weight_nn, weight_np, element, potv, only_1S0, at_, grid1. cbn. field.
Qed.

(* ---------- one-pion exchange ---------- *)
Lemma iso_fac_spec L S T : 0 <= T <= 1 -> Z.Odd (L + S + T) -> iso_fac L S = IZR (4 * T - 3).
Proof.
  intros HT [m Hm]. unfold iso_fac. change (Z.land (1 - L - S) 1) with (Z.land (1 - L - S) (Z.ones 1)).
  rewrite Z.land_ones by lia. change (2 ^ 1) with 2.
  replace (1 - L - S) with (T + (- m) * 2) by lia. rewrite Z_mod_plus_full, Z.mod_small by lia. f_equal. lia.
Qed.
Lemma legendre_values L z : (1 <= L)%nat -> exists tab, legendre_table L z = Ok tab /\
  forall d i, (d <= L)%nat -> (i < length z)%nat -> fetch_root tab (Z.of_nat d) i = Ok (P d (nth i z 0%R)).
Proof.
  intros HL. destruct (legendre_table_ok L z HL) as (tab & E & _ & H). exists tab. split; [ exact E | ].
  intros d i Hd Hi. destruct (H d Hd) as (row & E1 & L1 & H1). unfold fetch_root, zread.
  replace (Z.of_nat d <? 0) with false by lia. rewrite Nat2Z.id, (aread_some _ _ _ E1). cbn [obind].
  rewrite areadn by lia. f_equal. apply H1, Hi.
Qed.

(* ---------- tensor force off, J_2N_max = 2 ---------- *)
Lemma notensor_outside : exists ss, construct_symmetric_pw_states_g 0 2 1 false = Ok ss /\ vgrid_ok false grid1 /\
    length (repeat 0%R 10) = (Z.to_nat (num_2N_unco_states false false 2) * (vg_Np grid1 * vg_Np grid1))%nat /\
    num_2N_coup_states false false 2 = 0 /\
    forall mid, potential_matrices false false mid 2 malfliet_tjon (0, 0)%R grid1 (ss_states ss) (repeat 0%R 10) [] = UB.
Proof.
  destruct (construct_symmetric_pw_states_g 0 2 1 false) as [ss| | |] eqn:E; [ | vm_compute in E; discriminate.. ].
  exists ss. vm_compute in E. injection E as <-. split; [ reflexivity | ]. split; [ unfold vgrid_ok; cbn; auto | ].
  split; [ reflexivity | ]. split; [ reflexivity | ]. intros [|]; lazy; reflexivity.
Qed.
