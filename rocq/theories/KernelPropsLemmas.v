From Coq Require Import Reals Lra ZifyBool Permutation.
From Verif Require Import Common ArrayLib PWModel PWSpec PWProofs PWChnProofs SwpModel SparseModel SparseProofs GridSpec GridPropsLemmas PermPropsLemmas
  PotentialSpec PotentialProofs PotentialMatProofs PotentialPropsLemmas KernelModel KernelSpec KernelProofs KernelBlockProofs KernelColProofs.
Open Scope nat_scope.

Section S.
Variables (g Jm mx : Z) (iso : bool) (ss : statespace) (c : Z) (states : list pw) (tensor : bool) (Np Nq : nat)
  (V C : list R * list R).
Hypothesis Hmx : (1 <= mx)%Z.
Hypothesis Hodd : Z.Odd mx.
Hypothesis Hss : construct_symmetric_pw_states_g g Jm mx iso = Ok ss.
Hypothesis Hc : (0 <= c < ss_N_chn ss)%Z.
Hypothesis Hsl : channel_slice ss c = Ok states.
Hypothesis Hcfg : tensor = true \/ (tensor = false /\ iso = false /\ (Jm <= 1)%Z).
Hypothesis HV : mats_ok tensor iso Jm Np V.
Hypothesis HC : mats_ok tensor iso Jm Np C.
Let N := length states.
Notation C3 := (op3 tensor iso Np states C).
Notation V3 := (op3 tensor iso Np states V).

Lemma slice_states : (forall s, In s states <-> (physical s /\ in_model_space Jm mx iso s) /\ chn_of s = nth_chn c) /\ NoDup states.
Proof.
  destruct (construct_g_inv _ _ _ _ _ Hss) as [HJ E]. assert (HN : ss_N_chn ss = (mx + 1)%Z) by (rewrite E; apply length_keys_odd; assumption).
  destruct (slice_spec Jm mx iso c HJ Hmx Hodd) as (l & H1 & H2 & _ & H3); [ rewrite <- HN; exact Hc | ].
  rewrite E, H1 in Hsl. assert (E2 : states = l) by congruence. rewrite E2. split.
  - intros s. rewrite H3, in_tables. reflexivity.
  - rewrite H2. apply NoDup_chn_states.
Qed.

Lemma both_ok iu ic ip iu' ic' ip' :
  mats_ok tensor iso Jm Np (iu, ic) -> length ip = N * N -> mats_ok tensor iso Jm Np (iu', ic') -> length ip' = N * N ->
  exists CT VC, create_CT tensor iso Jm Np states (fst C) (snd C) iu ic ip = Ok CT /\
    create_VC tensor iso Jm Np states (fst V) (snd V) (fst C) (snd C) iu' ic' ip' = Ok VC /\
    reads_as tensor Np states CT (fun a b x y => elem2 tensor iso Np C (nth b states dummy_pw) (nth a states dummy_pw) y x) /\
    reads_as tensor Np states VC (fun a b x y => prod2 tensor iso Np states V C (nth b states dummy_pw) (nth a states dummy_pw) y x).
Proof.
  intros H1 H2 H3 H4. destruct slice_states as [Hst Hnd].
  destruct (create_CT_ok tensor iso Jm mx _ Np states Hst Hcfg C iu ic ip HC H1 H2) as (CT & E1 & R1).
  destruct (create_VC_ok tensor iso Jm mx _ Np states Hst Hnd Hcfg V C iu' ic' ip' HV HC H3 H4) as (VC & E2 & R2).
  exists CT, VC. auto.
Qed.

Lemma blocks iu ic ip iu' ic' ip' :
  mats_ok tensor iso Jm Np (iu, ic) -> length ip = N * N -> mats_ok tensor iso Jm Np (iu', ic') -> length ip' = N * N ->
  exists CT VC, create_CT tensor iso Jm Np states (fst C) (snd C) iu ic ip = Ok CT /\
    create_VC tensor iso Jm Np states (fst V) (snd V) (fst C) (snd C) iu' ic' ip' = Ok VC /\
    forall a b q x y, a < N -> b < N -> q < Nq -> x < Np -> y < Np ->
      block_elem CT N Np a b x y = Ok (C3 (b, q, y) (a, q, x)) /\
      block_elem VC N Np a b x y = Ok (sum3 N Nq Np (fun k => V3 (b, q, y) k * C3 k (a, q, x))%R) /\
      (aread (k_ptr CT) (a * N + b) = Ok None <-> connects tensor (nth a states dummy_pw) (nth b states dummy_pw) = false) /\
      (aread (k_ptr VC) (a * N + b) = Ok None <-> connects tensor (nth a states dummy_pw) (nth b states dummy_pw) = false).
Proof.
  intros H1 H2 H3 H4. destruct (both_ok iu ic ip iu' ic' ip' H1 H2 H3 H4) as (CT & VC & E1 & E2 & R1 & R2).
  exists CT, VC. split; [ exact E1 | ]. split; [ exact E2 | ]. intros a b q x y Ha Hb Hq Hx Hy.
  destruct slice_states as [Hst Hnd].
  pose proof (VC3_eq tensor iso Np Nq states V C b q y a q x Hb Hq Hy Ha Hq Hx) as HV3. fold N in HV3. rewrite HV3. rewrite Nat.eqb_refl. cbn [op3].
  rewrite Nat.eqb_refl. cbn [andb].
  destruct (R1 a b Ha Hb) as (p1 & P1 & N1 & Y1). destruct (R2 a b Ha Hb) as (p2 & P2 & N2 & Y2).
  fold N in P1, P2. unfold block_elem. rewrite P1, P2. cbn [obind]. rewrite (connects_sym tensor (nth b states dummy_pw)).
  destruct (connects tensor (nth a states dummy_pw) (nth b states dummy_pw)) eqn:Ec.
  - destruct (Y1 eq_refl) as [Q1 K1]. destruct (Y2 eq_refl) as [Q2 K2]. destruct p1 as [p1|]; [ | contradiction ]. destruct p2 as [p2|]; [ | contradiction ].
    rewrite K1, K2 by assumption. repeat split; try reflexivity; intros; discriminate.
  - rewrite (N1 eq_refl), (N2 eq_refl). split; [ reflexivity | ]. split; [ | split; split; reflexivity ].
    rewrite (prod2_unconnected tensor iso Jm mx (nth_chn c) Np states V C Hst Hcfg); [ reflexivity | ]. rewrite (connects_sym tensor). exact Ec.
Qed.

Lemma products P iu ic ip iu' ic' ip' deut qcom rows : csc_ok (N * Nq * Np) P -> 0 < Np ->
  mats_ok tensor iso Jm Np (iu, ic) -> length ip = N * N -> mats_ok tensor iso Jm Np (iu', ic') -> length ip' = N * N ->
  (forall d, In d deut -> d < N) -> (forall q, In q qcom -> q < Nq) -> length rows = length deut * length qcom * (N * Nq * Np) ->
  exists CT VC, create_CT tensor iso Jm Np states (fst C) (snd C) iu ic ip = Ok CT /\
    create_VC tensor iso Jm Np states (fst V) (snd V) (fst C) (snd C) iu' ic' ip' = Ok VC /\
    (forall ac qc pc, valid3 N Nq Np (ac, qc, pc) ->
      exists col, CPVC_col N Nq Np CT VC P ac pc qc (repeat 0%R (N * Nq * Np)) = Ok col /\ length col = N * Nq * Np /\
        forall x, valid3 N Nq Np x -> nth (idx3 Nq Np x) col 0%R = kernel N Nq Np C3 V3 P x (ac, qc, pc)) /\
    (exists rows', CPVC_rows N Nq Np CT VC P deut qcom rows = Ok rows' /\ length rows' = length rows /\
      forall i j y, i < length deut -> j < length qcom -> valid3 N Nq Np y ->
        nth ((i * length qcom + j) * (N * Nq * Np) + idx3 Nq Np y) rows' 0%R =
        kernel N Nq Np C3 V3 P (nth i deut 0, nth j qcom 0, 0) y).
Proof.
  intros HP HNp H1 H2 H3 H4 Hd Hq Hr. destruct (both_ok iu ic ip iu' ic' ip' H1 H2 H3 H4) as (CT & VC & E1 & E2 & R1 & R2).
  exists CT, VC. split; [ exact E1 | ]. split; [ exact E2 | ]. destruct slice_states as [Hst Hnd]. split.
  - intros ac qc pc Hv. pose proof Hv as (X1 & X2 & X3).
    destruct (CPVC_col_ok tensor Np Nq states P HP CT VC _ _ ac pc qc R1 R2 X1 X3 X2) as (col & E & L & H).
    exists col. split; [ exact E | ]. split; [ exact L | ]. intros x Hx.
    rewrite H by exact Hx. exact (ctv_kernel tensor iso Jm mx (nth_chn c) Np Nq states P V C Hst Hcfg ac qc pc x Hv Hx).
  - destruct (rows_ok tensor Np Nq states P HP CT VC _ _ deut qcom rows R1 R2 Hd Hq Hr) as (rows' & E & L & H).
    exists rows'. split; [ exact E | ]. split; [ exact L | ]. intros i j [[ac qc] pc] Hi Hj Hy. specialize (H i j (ac, qc, pc) Hi Hj Hy). fold N in H. rewrite H.
    apply (ctv_kernel tensor iso Jm mx (nth_chn c) Np Nq states P V C Hst Hcfg); [ exact Hy | ].
    cbn. split; [ apply Hd, nth_In; exact Hi | ]. split; [ apply Hq, nth_In; exact Hj | exact HNp ].
Qed.
End S.

(* ---------- P123 ---------- *)
Lemma coo_elem_perm l l' i j : Permutation l l' -> coo_elem l i j = coo_elem l' i j.
Proof.
  unfold coo_elem. induction 1 as [ | [[r c] v] l l' _ IH | [[r c] v] [[r' c'] v'] l | l l' l'' _ IH1 _ IH2 ]; cbn; [ reflexivity | | | congruence ].
  - rewrite IH. reflexivity.
  - destruct ((r =? i) && (c =? j)), ((r' =? i) && (c' =? j)); lra.
Qed.
Lemma sum_first f n : sum f (S n) = (f 0%nat + sum (fun k => f (S k)) n)%R.
Proof. induction n as [|n IH]; [ unfold sum; cbn; lra | ]. rewrite sum_S, IH, sum_S. lra. Qed.
Lemma coo_elem_sum rows cols vals i j : length cols = length rows -> length vals = length rows ->
  coo_elem (combine (combine rows cols) vals) i j =
  sum (fun k => if (nth k rows 0 =? i) && (nth k cols 0 =? j) then nth k vals 0%R else 0%R) (length vals).
Proof.
  revert cols vals; induction rows as [|r rows IH]; intros [|c cols] [|v vals] H1 H2; try discriminate; [ reflexivity | ].
  cbn [combine coo_elem fold_right length]. rewrite sum_first. cbn [nth].
  rewrite <- (IH cols vals) by (cbn in *; lia). unfold coo_elem. destruct ((r =? i) && (c =? j)); lra.
Qed.
Lemma p123_csc dim rows cols (vals : list R) idx :
  length cols = length rows -> length vals = length rows -> (Z.of_nat dim < 2 ^ 31)%Z ->
  (forall r, In r rows -> r < dim) -> (forall c, In c cols -> c < dim) ->
  sort_indexes_contract (keys_col_major dim rows cols) idx ->
  exists rows' cols' vals',
    apply_sort rows cols vals idx = Ok (rows', cols', vals') /\
    csc_ok dim (mkcsc vals' rows' (coo_to_csr cols' dim)) /\
    forall i j, i < dim -> j < dim ->
      csc_elem (mkcsc vals' rows' (coo_to_csr cols' dim)) i j = coo_elem (combine (combine rows cols) vals) i j.
Proof.
  intros H1 H2 H3 H4 H5 H6. destruct (p123_pipeline dim rows cols vals idx H1 H2 H3 H4 H5 H6)
    as (rows' & cols' & vals' & E & L1 & L2 & L3 & Hp & L4 & _ & _ & Hc).
  exists rows', cols', vals'. split; [ exact E | ].
  assert (Hrow : forall r, In r rows' -> r < dim).
  { intros r Hr. apply H4. destruct (In_nth _ _ 0 Hr) as (k & Hk & Ek).
    assert (I : In ((r, nth k cols' 0), nth k vals' 0%R) (combine (combine rows' cols') vals')).
    { rewrite <- Ek. rewrite <- combine_nth by lia. rewrite <- combine_nth by (rewrite combine_length; lia).
      apply nth_In. rewrite !combine_length. lia. }
    apply (Permutation_in _ Hp) in I. apply in_combine_l in I. apply in_combine_l in I. exact I. }
  split.
  - unfold csc_ok. cbn [c_val c_row c_col]. split; [ congruence | ]. split; [ exact L4 | ]. split.
    + intros k Hk. apply Hrow, nth_In. exact Hk.
    + intros j Hj. destruct (Hc j Hj) as (a & b & Ea & Eb & Hab & _). rewrite Nat.add_1_r in Eb.
      rewrite (nth_error_nth _ _ _ Ea), (nth_error_nth _ _ _ Eb). lia.
  - intros i j Hi Hj. rewrite <- (coo_elem_perm _ _ i j Hp). rewrite coo_elem_sum by congruence.
    unfold csc_elem. cbn [c_val c_row c_col]. apply sum_ext. intros k Hk.
    destruct (Hc j Hj) as (a & b & Ea & Eb & Hab & Hm). rewrite Nat.add_1_r in Eb.
    rewrite (nth_error_nth _ _ _ Ea), (nth_error_nth _ _ _ Eb). specialize (Hm k ltac:(lia)).
    replace ((a <=? k) && (k <? b)) with (nth k cols' 0 =? j); [ rewrite andb_comm; reflexivity | ].
    apply eq_true_iff_eq. rewrite andb_true_iff, Nat.eqb_eq, Nat.leb_le, Nat.ltb_lt. symmetry. exact Hm.
Qed.

Lemma blocks_refuted : exists ss states CT a,
  construct_symmetric_pw_states_g 0 2 1 false = Ok ss /\ channel_slice ss 0 = Ok states /\
  mats_ok false false 2 1 (repeat 1%R 10, []) /\
  create_CT false false 2 1 states (repeat 1%R 10) [] (repeat 1%R 10) [] (repeat None (length states * length states)) = Ok CT /\
  a < length states /\ block_elem CT (length states) 1 a a 0 0 = UB.
Proof.
  destruct (construct_symmetric_pw_states_g 0 2 1 false) as [ss| | |] eqn:E; [ | vm_compute in E; discriminate.. ].
  exists ss. vm_compute in E. injection E as <-.
  eexists. eexists. exists 10. split; [ reflexivity | ]. split; [ vm_compute; reflexivity | ].
  split; [ split; vm_compute; reflexivity | ].
  split; [ vm_compute; reflexivity | ]. split; [ cbn; lia | vm_compute; reflexivity ].
Qed.

Lemma columns_refuted : exists ss states CT VC ac,
  construct_symmetric_pw_states_g 0 2 1 false = Ok ss /\ channel_slice ss 0 = Ok states /\
  mats_ok false false 2 1 (repeat 1%R 10, []) /\
  create_CT false false 2 1 states (repeat 1%R 10) [] (repeat 1%R 10) [] (repeat None (length states * length states)) = Ok CT /\
  create_VC false false 2 1 states (repeat 1%R 10) [] (repeat 1%R 10) [] (repeat 1%R 10) [] (repeat None (length states * length states)) = Ok VC /\
  ac < length states /\ forall P, CPVC_col (length states) 1 1 CT VC P ac 0 0 (repeat 0%R (length states)) = UB.
Proof.
  destruct (construct_symmetric_pw_states_g 0 2 1 false) as [ss| | |] eqn:E; [ | vm_compute in E; discriminate.. ].
  exists ss. vm_compute in E. injection E as <-.
  eexists. eexists. eexists. exists 10. split; [ reflexivity | ]. split; [ vm_compute; reflexivity | ].
  split; [ split; vm_compute; reflexivity | ].
  split; [ vm_compute; reflexivity | ]. split; [ vm_compute; reflexivity | ]. split; [ cbn; lia | ]. intros P. vm_compute. reflexivity.
Qed.
