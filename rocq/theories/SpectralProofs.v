From Coq Require Import Reals Lra Lia ZifyBool.
From Verif Require Import Common ArrayLib PWModel PWSpec SwpModel SwpSpec GridSpec GridPropsLemmas PermPropsLemmas PotentialSpec
  KernelModel KernelSpec KernelProofs KernelBlockProofs KernelColProofs KernelPropsLemmas SwpWholeModel SwpWholeSpec SpectralSpec.
Open Scope nat_scope.

Lemma blk_lt s : block s < 2.
Proof. unfold block. repeat match goal with |- context [if ?b then _ else _] => destruct b end; lia. Qed.

Section Class.
Variables (iso : bool) (Jm mx : Z) (key : Z * Z) (Np Nq : nat) (states : list pw).
Hypothesis Hst : forall s, In s states <-> (physical s /\ in_model_space Jm mx iso s) /\ chn_of s = key.
Hypothesis Hnd : NoDup states.
Let Hcfg : true = true \/ (true = false /\ iso = false /\ (Jm <= 1)%Z) := or_introl eq_refl.
Notation st a := (nth a states dummy_pw).
Notation conn := (connects true).
Notation cpl s := (coupled_matrix true iso s s).
Definition pos (cm : bool) (s : pw) (y : nat) : nat := if cm then block s * Np + y else y.

Lemma conn_cpl r s : In r states -> In s states -> conn r s = true -> cpl s = cpl r.
Proof. intros Hr Hs H. pose proof (connects_matrix true iso Jm mx key states Hst Hcfg r s Hr Hs H) as E. unfold matrix_of in E. congruence. Qed.
Lemma sum_split2 f n m : sum f (n + m) = (sum f n + sum (fun k => f (n + k)%nat) m)%R.
Proof. induction m as [|m IH]; [ rewrite Nat.add_0_r; unfold sum at 3; cbn; lra | ]. rewrite Nat.add_succ_r, !sum_S, IH. lra. Qed.

Lemma class_sum r (F : nat -> R) : In r states ->
  lsum (fun s => if conn s r then sum (fun y => F (pos (cpl r) s y)) Np else 0%R) states = sum F (dim2 (cpl r) Np).
Proof.
  intros Hr. unfold pos, dim2. destruct (cpl r) eqn:Ec.
  - destruct (partners true iso Jm mx key states Hst Hcfg r Hr Ec) as (s0 & s1 & I0 & I1 & C0 & C1 & B0 & B1 & Hall).
    rewrite (lsum_two _ states s0 s1 Hnd I0 I1).
    + rewrite !(connects_sym true _ r), C0, C1, B0, B1. cbn [Nat.mul Nat.add]. rewrite Nat.add_0_r, sum_split2. f_equal. 
    + intros ->. congruence.
    + intros s Hs N0 N1. rewrite (connects_sym true). destruct (conn r s) eqn:E; [ | reflexivity ]. destruct (Hall s Hs E); contradiction.
  - rewrite (lsum_one _ states r Hnd Hr); [ rewrite connects_refl; reflexivity | ].
    intros s Hs Hne. rewrite (connects_sym true). destruct (conn r s) eqn:E; [ | reflexivity ]. exfalso. apply Hne. exact (alone true iso Jm mx key states Hst Hcfg r s Hr Hs Ec E).
Qed.

Lemma class_sum3 r q0 (F : nat -> R) : In r states -> q0 < Nq ->
  sum3 (length states) Nq Np (fun k => let '(a, q, y) := k in if (q =? q0) && conn (st a) r then F (pos (cpl r) (st a) y) else 0%R) = sum F (dim2 (cpl r) Np).
Proof.
  intros Hr Hq. rewrite <- (class_sum r F Hr). rewrite <- sum_lsum.
  transitivity (sum3 (length states) Nq Np (fun x => let '(a, q', p) := x in if q' =? q0 then (fun a p => if conn (st a) r then F (pos (cpl r) (st a) p) else 0%R) a p else 0%R)).
  - apply sum3_ext. intros [[a q] y] _. destruct (q =? q0); reflexivity.
  - rewrite sum3_diag by exact Hq. apply sum_ext. intros a _. destruct (conn (st a) r); [ reflexivity | apply sum_zero; reflexivity ].
Qed.

Lemma nth_inj a b : a < length states -> b < length states -> st a = st b -> a = b.
Proof. intros Ha Hb E. exact (proj1 (NoDup_nth states dummy_pw) Hnd a b Ha Hb E). Qed.

Lemma pos_lt r y : y < Np -> pos (cpl r) r y < dim2 (cpl r) Np.
Proof. intros Hy. unfold pos, dim2. pose proof (blk_lt r). destruct (cpl r); nia. Qed.
Lemma pos_lt' cm r y : y < Np -> pos cm r y < dim2 cm Np.
Proof. intros Hy. unfold pos, dim2. pose proof (blk_lt r). destruct cm; nia. Qed.
Lemma pos_mod cm r y : y < Np -> pos cm r y mod Np = y.
Proof.
  intros Hy. unfold pos. destruct cm; [ | apply Nat.mod_small, Hy ]. rewrite Nat.add_comm, Nat.mod_add by lia. apply Nat.mod_small, Hy.
Qed.
(* within a class, the position identifies partial wave and bin *)
Lemma pos_inj a b x y : a < length states -> b < length states -> x < Np -> y < Np -> conn (st a) (st b) = true ->
  (pos (cpl (st b)) (st a) x =? pos (cpl (st b)) (st b) y) = (a =? b) && (x =? y).
Proof.
  intros Ha Hb Hx Hy H. assert (Ia : In (st a) states) by (apply nth_In; exact Ha). assert (Ib : In (st b) states) by (apply nth_In; exact Hb).
  apply eq_true_iff_eq. rewrite andb_true_iff, !Nat.eqb_eq. split; [ | intros [-> ->]; reflexivity ].
  intros E. unfold pos in E. destruct (cpl (st b)) eqn:Ec.
  - pose proof (blk_lt (st a)). pose proof (blk_lt (st b)).
    assert (Eb : block (st a) = block (st b) /\ x = y)
      by (clear -E H0 H1 Hx Hy; destruct (block (st a)) as [|[|]], (block (st b)) as [|[|]]; lia). destruct Eb as [Eb Exy]. split; [ | exact Exy ].
    destruct (partners true iso Jm mx key states Hst Hcfg (st b) Ib Ec) as (s0 & s1 & I0 & I1 & C0 & C1 & B0 & B1 & Hall).
    apply nth_inj; [ exact Ha | exact Hb | ].
    destruct (Hall (st a) Ia ltac:(rewrite (connects_sym true); exact H)) as [Ea|Ea], (Hall (st b) Ib (connects_refl true _)) as [Eb'|Eb']; congruence.
  - split; [ | exact E ]. apply nth_inj; [ exact Ha | exact Hb | ].
    apply (alone true iso Jm mx key states Hst Hcfg (st b) (st a) Ib Ia Ec). rewrite (connects_sym true). exact H.
Qed.

(* elements *)
Definition celem (M : list R * list R) (cm : bool) (z x y : nat) : R := nth (z * dim2 cm Np * dim2 cm Np + x * dim2 cm Np + y) (pick cm M) 0%R.
Lemma elem2_pos M r c i j z : mats_ok true iso Jm Np M -> In r states -> In c states -> conn r c = true ->
  matrix_of true iso r = (cpl r, Ok (Z.of_nat z)) -> i < Np -> j < Np ->
  elem2 true iso Np M r c i j = celem M (cpl r) z (pos (cpl r) r i) (pos (cpl r) c j).
Proof.
  intros HM Hr Hc Hcon Ez Hi Hj. rewrite (elem2_eq true iso Jm mx key Np states Hst Hcfg M r c i j z HM Hr Hc Ez Hi Hj).
  unfold celem, melem, pos, dim2, pick. destruct (cpl r); f_equal; nia.
Qed.

Variables (V C : list R * list R) (p : list R) (w : bool -> nat -> nat -> R).
Hypothesis HV : mats_ok true iso Jm Np V.
Hypothesis HC : mats_ok true iso Jm Np C.
Hypothesis Hsym : symmetric_potential iso Jm Np V.
Hypothesis Hbasis : forall cm i, is_channel iso states cm i ->
  eigenbasis (dim2 cm Np) (symmetric_of (hamiltonian Np p V cm i)) (fun x k => celem C cm i x k) (w cm i).
Notation N := (length states).
Notation C3 := (op3 true iso Np states C).
Notation V3 := (op3 true iso Np states V).

Definition eigval (x : state3) : R :=
  let '(a, q, i) := x in
  match matrix_of true iso (st a) with (cm, Ok z) => w cm (Z.to_nat z) (pos cm (st a) i) | _ => 0%R end.

Lemma orthogonal3 x y : valid3 N Nq Np x -> valid3 N Nq Np y ->
  sum3 N Nq Np (fun k => C3 k x * C3 k y)%R = if same3 Nq Np x y then 1%R else 0%R.
Proof.
  destruct x as [[a q] i], y as [[a' q'] i']. intros (Ha & Hq & Hi) (Ha' & Hq' & Hi').
  assert (Ia : In (st a) states) by (apply nth_In; exact Ha). assert (Ia' : In (st a') states) by (apply nth_In; exact Ha').
  destruct (conn (st a) (st a')) eqn:Ecn; [ destruct (Nat.eqb_spec q q') as [->|Hne] | ].
  - destruct (mat_of true iso Jm mx key states Hst Hcfg (st a) Ia) as (z & Ez & Bz).
    assert (Ec' := conn_cpl _ _ Ia Ia' Ecn).
    assert (Ez' : matrix_of true iso (st a') = (cpl (st a), Ok (Z.of_nat z))) by (rewrite <- (connects_matrix true iso Jm mx key states Hst Hcfg _ _ Ia Ia' Ecn); exact Ez).
    set (cm := cpl (st a)) in *.
    transitivity (sum3 N Nq Np (fun k => let '(b, r, y) := k in if (r =? q') && conn (st b) (st a) then
        (fun Y => celem C cm z Y (pos cm (st a) i) * celem C cm z Y (pos cm (st a') i'))%R (pos cm (st b) y) else 0%R)).
    + apply sum3_ext. intros [[b r] y] (Hb & Hr & Hy). cbn [op3]. destruct (r =? q'); cbn [andb]; [ | lra ].
      assert (Ib : In (st b) states) by (apply nth_In; exact Hb).
      destruct (conn (st b) (st a)) eqn:E1.
      * assert (E2 : conn (st b) (st a') = true) by (apply (connects_trans true iso Jm mx key states Hst Hcfg _ (st a)); assumption). rewrite E2.
        assert (Eb : cpl (st b) = cm) by (apply conn_cpl; [ exact Ia | exact Ib | rewrite (connects_sym true); exact E1 ]).
        assert (Ezb : matrix_of true iso (st b) = (cpl (st b), Ok (Z.of_nat z)))
          by (rewrite Eb; rewrite (connects_matrix true iso Jm mx key states Hst Hcfg _ _ Ib Ia E1); exact Ez).
        rewrite !(elem2_pos C _ _ _ _ z) by assumption. rewrite Eb. reflexivity.
      * lra.
    + etransitivity; [ exact (class_sum3 (st a) q' (fun Y => celem C cm z Y (pos cm (st a) i) * celem C cm z Y (pos cm (st a') i'))%R Ia Hq') | ]. fold cm.
      assert (Hch : is_channel iso states cm z) by (exists (st a); auto).
      destruct (Hbasis cm z Hch (pos cm (st a) i) (pos_lt' _ _ _ Hi)) as [_ O].
      rewrite (O (pos cm (st a') i') (pos_lt' _ _ _ Hi')).
      assert (P := pos_inj a a' i i' Ha Ha' Hi Hi' Ecn). rewrite Ec' in P. fold cm in P. rewrite P.
      replace (same3 Nq Np (a, q', i) (a', q', i')) with ((a =? a') && (i =? i')); [ reflexivity | ].
      unfold same3. apply eq_true_iff_eq. rewrite andb_true_iff, !Nat.eqb_eq. split; [ intros [-> ->]; reflexivity | ].
      intros E. apply (idx3_inj N Nq Np) in E; [ | split; [ exact Ha | split; [ exact Hq' | exact Hi ] ] | split; [ exact Ha' | split; [ exact Hq' | exact Hi' ] ] ]. injection E as -> ->. auto.
  - replace (same3 Nq Np (a, q, i) (a', q', i')) with false.
    + unfold sum3. apply sum_zero. intros b _. apply sum_zero. intros r _. apply sum_zero. intros y _. cbn [op3].
      destruct (Nat.eqb_spec r q); cbn [andb]; [ | lra ]. destruct (Nat.eqb_spec r q'); cbn [andb]; [ congruence | lra ].
    + symmetry. apply Nat.eqb_neq. intros E. apply (idx3_inj N Nq Np) in E; [ congruence | repeat split; assumption | repeat split; assumption ].
  - replace (same3 Nq Np (a, q, i) (a', q', i')) with false.
    + unfold sum3. apply sum_zero. intros b _. apply sum_zero. intros r _. apply sum_zero. intros y _. cbn [op3].
      destruct (conn (st b) (st a)) eqn:E1; [ | rewrite andb_false_r; lra ]. destruct (conn (st b) (st a')) eqn:E2; [ | rewrite !andb_false_r; lra ].
      exfalso. assert (conn (st a) (st a') = true); [ | congruence ].
      apply (connects_trans true iso Jm mx key states Hst Hcfg _ (st b)); [ rewrite (connects_sym true); exact E1 | exact E2 ].
    + symmetry. apply Nat.eqb_neq. intros E. apply (idx3_inj N Nq Np) in E; [ | repeat split; assumption | repeat split; assumption ]. injection E as -> -> ->. rewrite connects_refl in Ecn. discriminate.
Qed.

Lemma eigen3 x y : valid3 N Nq Np x -> valid3 N Nq Np y ->
  sum3 N Nq Np (fun k => pair_hamiltonian iso Np states p V x k * C3 k y)%R = (eigval y * C3 x y)%R.
Proof.
  destruct x as [[a q] i], y as [[a' q'] i']. intros (Ha & Hq & Hi) (Ha' & Hq' & Hi').
  assert (Ia : In (st a) states) by (apply nth_In; exact Ha). assert (Ia' : In (st a') states) by (apply nth_In; exact Ha').
  destruct (conn (st a) (st a')) eqn:Ecn; [ destruct (Nat.eqb_spec q q') as [->|Hne] | ].
  - destruct (mat_of true iso Jm mx key states Hst Hcfg (st a) Ia) as (z & Ez & Bz).
    assert (Ec' := conn_cpl _ _ Ia Ia' Ecn).
    assert (Ez' : matrix_of true iso (st a') = (cpl (st a), Ok (Z.of_nat z))) by (rewrite <- (connects_matrix true iso Jm mx key states Hst Hcfg _ _ Ia Ia' Ecn); exact Ez).
    cbn [op3 eigval]. rewrite Nat.eqb_refl, Ecn. cbn [andb]. rewrite Ez', Nat2Z.id.
    rewrite (elem2_pos C _ _ _ _ z) by assumption. set (cm := cpl (st a)) in *.
    assert (Hz : z < num_channels iso Jm cm) by (unfold num_channels; fold cm in Bz; destruct cm; exact Bz).
    transitivity (sum3 N Nq Np (fun k => let '(b, r, y) := k in if (r =? q') && conn (st b) (st a) then
        (fun Y => symmetric_of (hamiltonian Np p V cm z) (pos cm (st a) i) Y * celem C cm z Y (pos cm (st a') i'))%R (pos cm (st b) y) else 0%R)).
    + apply sum3_ext. intros [[b r] y] (Hb & Hr & Hy). unfold pair_hamiltonian. cbn [op3 kinetic3]. rewrite (Nat.eqb_sym q' r).
      destruct (Nat.eqb_spec r q') as [->|]; cbn [andb]; [ | rewrite andb_false_r; cbn [andb]; lra ].
      assert (Ib : In (st b) states) by (apply nth_In; exact Hb).
      rewrite (connects_sym true (st a) (st b)). destruct (conn (st b) (st a)) eqn:E1.
      * assert (E2 : conn (st b) (st a') = true) by (apply (connects_trans true iso Jm mx key states Hst Hcfg _ (st a)); assumption). rewrite E2.
        assert (Eb : cpl (st b) = cm) by (apply conn_cpl; [ exact Ia | exact Ib | rewrite (connects_sym true); exact E1 ]).
        assert (Ezb : matrix_of true iso (st b) = (cpl (st b), Ok (Z.of_nat z)))
          by (rewrite Eb; rewrite (connects_matrix true iso Jm mx key states Hst Hcfg _ _ Ib Ia E1); exact Ez).
        rewrite (elem2_pos C _ _ _ _ z) by assumption. rewrite (elem2_pos V _ _ _ _ z) by (try assumption; rewrite (connects_sym true); exact E1). rewrite Eb. fold cm. f_equal.
        assert (P := pos_inj b a y i Hb Ha Hy Hi E1). fold cm in P.
        unfold symmetric_of. set (X := pos cm (st a) i) in *. set (Y := pos cm (st b) y) in *.
        assert (LX : X < dim2 cm Np) by (apply pos_lt'; exact Hi). assert (LY : Y < dim2 cm Np) by (apply pos_lt'; exact Hy).
        assert (EV : celem V cm z (Nat.min X Y) (Nat.max X Y) = celem V cm z X Y).
        { destruct (Nat.le_ge_cases X Y); [ rewrite Nat.min_l, Nat.max_r by assumption; reflexivity | ]. rewrite Nat.min_r, Nat.max_l by assumption. unfold celem. symmetry. apply Hsym; assumption. }
        unfold hamiltonian. fold (celem V cm z (Nat.min X Y) (Nat.max X Y)). rewrite EV. f_equal.
        replace (Nat.min X Y =? Nat.max X Y) with ((a =? b) && true && (i =? y)).
        -- rewrite andb_true_r. destruct (Nat.eqb_spec a b) as [Eab|]; cbn [andb]; [ | reflexivity ]. destruct (Nat.eqb_spec i y) as [Eiy|]; [ | reflexivity ].
           f_equal. replace Y with X by (unfold X, Y; rewrite Eab, Eiy; reflexivity). rewrite Nat.min_id. unfold X. symmetry. apply pos_mod. exact Hi.
        -- rewrite andb_true_r, (Nat.eqb_sym a b), (Nat.eqb_sym i y). change ((b =? a) && (y =? i) = (Nat.min X Y =? Nat.max X Y)). rewrite <- P. apply eq_true_iff_eq. rewrite !Nat.eqb_eq. lia.
      * replace (a =? b) with false; [ cbn [andb]; lra | ]. symmetry. apply Nat.eqb_neq. intros ->. rewrite connects_refl in E1. discriminate.
    + etransitivity; [ exact (class_sum3 (st a) q' (fun Y => symmetric_of (hamiltonian Np p V cm z) (pos cm (st a) i) Y * celem C cm z Y (pos cm (st a') i'))%R Ia Hq') | ]. fold cm.
      assert (Hch : is_channel iso states cm z) by (exists (st a); auto).
      destruct (Hbasis cm z Hch (pos cm (st a') i') (pos_lt' _ _ _ Hi')) as [E _]. apply (E _ (pos_lt' _ _ _ Hi)).
  - cbn [op3]. replace (q =? q') with false by (symmetry; apply Nat.eqb_neq; exact Hne). cbn [andb]. rewrite Rmult_0_r.
    unfold sum3. apply sum_zero. intros b _. apply sum_zero. intros r _. apply sum_zero. intros y _. unfold pair_hamiltonian. cbn [op3 kinetic3].
    destruct (Nat.eqb_spec r q'); [ | cbn [andb]; lra ]. replace (q =? r) with false by (symmetry; apply Nat.eqb_neq; congruence). rewrite andb_false_r. cbn [andb]. lra.
  - cbn [op3]. rewrite Ecn, andb_false_r, Rmult_0_r.
    unfold sum3. apply sum_zero. intros b _. apply sum_zero. intros r _. apply sum_zero. intros y _. unfold pair_hamiltonian. cbn [op3 kinetic3].
    destruct (conn (st b) (st a')) eqn:E2; [ | rewrite andb_false_r; lra ].
    destruct (conn (st a) (st b)) eqn:E1.
    + exfalso. assert (conn (st a) (st a') = true); [ | congruence ]. apply (connects_trans true iso Jm mx key states Hst Hcfg _ (st b)); assumption.
    + rewrite andb_false_r. destruct (Nat.eqb_spec a b) as [->|]; [ rewrite connects_refl in E1; discriminate | cbn [andb]; lra ].
Qed.
End Class.
