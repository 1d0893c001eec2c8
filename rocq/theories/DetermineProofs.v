(* The wave packets, and with them the amplitudes, are determined by the interaction (C92). *)
From Coq Require Import Reals Lra Lia ZifyBool.
From Verif Require Import Common PWModel PWSpec GridSpec GridPropsLemmas PotentialSpec KernelModel KernelSpec KernelBlockProofs KernelColProofs
  SwpWholeSpec SpectralSpec SpectralProofs SpectralFinal ResolventModel FaddeevModel FaddeevSpec FaddeevLink DetModel AgsSpec AgsFinal ChainSpec ChainFinal UniqueProofs.
Open Scope nat_scope.

Section Det.
Variables (iso : bool) (Jm mx : Z) (key : Z * Z) (Nq Np : nat) (states : list pw) (p q : list R) (V3 : state3 -> state3 -> R) (Eb : R).
Hypothesis Hst : forall s, In s states <-> (physical s /\ in_model_space Jm mx iso s) /\ chn_of s = key.
Hypothesis Hnd : NoDup states.
Hypothesis HNp : 3 <= Np.
Hypothesis HNq : 1 <= Nq.
Notation N := (length states).
Notation D := (length states * Nq * Np).
Notation sta a := (nth a states dummy_pw).
Notation so i := (state_of Nq Np i).

Lemma conn_equiv : (forall r s, connects true r s = true -> connects true s r = true) /\
  (forall r s t, connects true r s = true -> connects true s t = true -> connects true r t = true).
Proof. split; [ intros r s H; rewrite connects_sym; exact H | ]. exact (connects_trans true iso Jm mx key states Hst (or_introl eq_refl)). Qed.
Lemma sum3_sum' (f : state3 -> R) : sum3 N Nq Np f = sum (fun k => f (so k)) D.
Proof. rewrite <- sum3_flat. apply sum3_ext'. intros x Hx. rewrite (state_of_idx N) by exact Hx. reflexivity. Qed.
Lemma so_valid i : i < D -> valid3 N Nq Np (so i) /\ idx3 Nq Np (so i) = i.
Proof. apply state_of_valid; lia. Qed.

Definition cls (i j : nat) : Prop :=
  let '(a, iq, _) := so i in let '(b, jq, _) := so j in iq = jq /\ connects true (sta a) (sta b) = true.
Definition rank (k : nat) : nat := let '(a, _, i) := so k in 2 * i + block (sta a).

Lemma rank_inj x y : x < D -> y < D -> cls x y -> rank x = rank y -> x = y.
Proof.
  intros Hx Hy Hc Hr. destruct (so_valid x Hx) as [Vx Ex]. destruct (so_valid y Hy) as [Vy Ey]. rewrite <- Ex, <- Ey. f_equal. unfold cls, rank in *.
  destruct (so x) as [[a iq] i], (so y) as [[b jq] j]. destruct Vx as (Ha & _ & Hi), Vy as (Hb & _ & Hj). destruct Hc as [-> Hc].
  pose proof (blk_lt (sta a)). pose proof (blk_lt (sta b)).
  assert (Eij : i = j /\ block (sta a) = block (sta b)) by lia. destruct Eij as [-> Eb'].
  assert (E := pos_inj iso Jm mx key Np states Hst Hnd a b j j Ha Hb Hj Hj Hc). unfold pos in E. rewrite Eb', !Nat.eqb_refl in E.
  destruct (coupled_matrix true iso (sta b) (sta b)); rewrite ?Nat.eqb_refl in E; cbn [andb] in E; symmetry in E; rewrite andb_true_r in E; apply Nat.eqb_eq in E; subst; reflexivity.
Qed.

Section One.
Variables (C : state3 -> state3 -> R) (lam : state3 -> R) (edge : nat -> nat -> R).
Hypothesis HW : wave_packets states Nq Np p V3 Eb C lam edge.
Lemma wp_orth x y : x < D -> y < D -> sum (fun k => C (so k) (so x) * C (so k) (so y))%R D = if x =? y then 1%R else 0%R.
Proof.
  intros Hx Hy. destruct (so_valid x Hx) as [Vx Ex]. destruct (so_valid y Hy) as [Vy Ey]. destruct HW as (H & _). destruct (H _ _ Vx Vy) as [H1 _].
  unfold same3 in H1. rewrite Ex, Ey in H1. rewrite <- H1. symmetry. apply (sum3_sum' (fun k => C k (so x) * C k (so y))%R).
Qed.
Lemma wp_eig x y : x < D -> y < D -> sum (fun k => (V3 (so x) (so k) + kinetic3 p (so x) (so k)) * C (so k) (so y))%R D = (lam (so y) * C (so x) (so y))%R.
Proof.
  intros Hx Hy. destruct (so_valid x Hx) as [Vx Ex]. destruct (so_valid y Hy) as [Vy Ey]. destruct HW as (H & _). destruct (H _ _ Vx Vy) as [_ H1].
  rewrite <- H1. symmetry. apply (sum3_sum' (fun k => (V3 (so x) k + kinetic3 p (so x) k) * C k (so y))%R).
Qed.
Lemma wp_zero x y : C (so x) (so y) <> 0%R -> cls x y.
Proof. unfold cls. destruct (so x) as [[a iq] i], (so y) as [[b jq] j]. destruct HW as (_ & H & _). apply H. Qed.
Lemma wp_mono x y : x < D -> y < D -> cls x y -> rank x < rank y -> (lam (so x) < lam (so y))%R.
Proof.
  intros Hx Hy Hc Hr. destruct (so_valid x Hx) as [Vx _]. destruct (so_valid y Hy) as [Vy _]. unfold cls, rank in *.
  destruct (so x) as [[a iq] i], (so y) as [[b jq] j]. destruct Hc as [-> Hc]. destruct HW as (_ & _ & _ & H & _). apply H; [ assumption | assumption | exact Hc | ].
  pose proof (blk_lt (sta a)). pose proof (blk_lt (sta b)). lia.
Qed.
End One.

Variables (C1 C2 : state3 -> state3 -> R) (lam1 lam2 : state3 -> R) (edge1 edge2 : nat -> nat -> R).
Hypothesis HW1 : wave_packets states Nq Np p V3 Eb C1 lam1 edge1.
Hypothesis HW2 : wave_packets states Nq Np p V3 Eb C2 lam2 edge2.

Lemma basis_unique :
  (forall x, valid3 N Nq Np x -> lam1 x = lam2 x) /\ (forall a j, a < N -> j <= Np -> edge1 a j = edge2 a j) /\
  exists s : nat -> R, (forall x, x < D -> (s x * s x = 1)%R) /\ forall k x, k < D -> x < D -> C2 (so k) (so x) = (s x * C1 (so k) (so x))%R.
Proof.
  destruct (unique_basis D (fun x y => V3 (so x) (so y) + kinetic3 p (so x) (so y))%R (fun x y => C1 (so x) (so y)) (fun x y => C2 (so x) (so y))
    (fun x => lam1 (so x)) (fun x => lam2 (so x)) cls rank (wp_orth _ _ _ HW1) (wp_orth _ _ _ HW2) (wp_eig _ _ _ HW1) (wp_eig _ _ _ HW2)
    (fun x y _ _ => wp_zero _ _ _ HW1 x y) (fun x y _ _ => wp_zero _ _ _ HW2 x y)) as (HL & s & Hs & HC & _).
  - intros x y _ _. unfold cls. destruct (so x) as [[a iq] i], (so y) as [[b jq] j]. intros [-> H]. split; [ reflexivity | apply conn_equiv; exact H ].
  - intros x y z _ _ _. unfold cls. destruct (so x) as [[a iq] i], (so y) as [[b jq] j], (so z) as [[d kq] k]. intros [-> H] [-> H']. split; [ reflexivity | exact (proj2 conn_equiv _ _ _ H H') ].
  - apply rank_inj.
  - exact (wp_mono _ _ _ HW1).
  - exact (wp_mono _ _ _ HW2).
  - assert (L : forall x, valid3 N Nq Np x -> lam1 x = lam2 x).
    { intros x Hx. rewrite <- (state_of_idx N Nq Np x Hx). apply HL. apply idx3_lt. exact Hx. }
    split; [ exact L | ]. split; [ | exists s; auto ].
    intros a j Ha Hj. destruct HW1 as (_ & _ & _ & _ & _ & H1). destruct HW2 as (_ & _ & _ & _ & _ & H2).
    destruct (H1 a 0 Ha ltac:(lia)) as [D1 S1]. destruct (H2 a 0 Ha ltac:(lia)) as [D2 S2].
    assert (La : forall i, i < Np -> lam1 (a, 0, i) = lam2 (a, 0, i)) by (intros i Hi; apply L; cbn; lia).
    destruct (is_deut_dec (sta a)) as [Dt|Dt].
    + destruct (D1 Dt) as (A1 & A2 & A3 & A4), (D2 Dt) as (B1 & B2 & B3 & B4).
      destruct (Nat.eq_dec j 0) as [->|]; [ rewrite A1, B1; apply La; lia | ]. destruct (Nat.eq_dec j 1) as [->|]; [ congruence | ].
      destruct (Nat.eq_dec j Np) as [->|]; [ rewrite A4, B4, !La by lia; reflexivity | ]. rewrite A3, B3, !La by lia. reflexivity.
    + destruct (S1 Dt) as (A1 & A3 & A4), (S2 Dt) as (B1 & B3 & B4).
      destruct (Nat.eq_dec j 0) as [->|]; [ congruence | ].
      destruct (Nat.eq_dec j Np) as [->|]; [ rewrite A4, B4, !La by lia; reflexivity | ]. rewrite A3, B3, !La by lia. reflexivity.
Qed.

(* the model space holds, with a partner of a deuteron wave, the same partner for every spectator state *)
Lemma partner_wave a d d' : In a states -> In d states -> In d' states -> is_deuteron d -> is_deuteron d' -> connects true a d = true ->
  exists a', In a' states /\ same_pair a a' /\ connects true a' d' = true.
Proof.
  intros Ia Id Id' (D1 & D2 & D3 & D4) (D1' & D2' & D3' & D4') Hc.
  apply connects_iff in Hc. destruct Hc as ((K1 & K2 & K3 & K4) & K5 & K6).
  apply Hst in Ia. destruct Ia as [[Pa Ma] Ka]. apply Hst in Id'. destruct Id' as [[Pd Md] Kd].
  exists (mkpw (L_2N a) (S_2N a) (J_2N a) (T_2N a) (L_1N d') (two_J_1N d') (two_J_3N d') (two_T_3N a) (P_3N d')).
  assert (Ev : Z.even (L_2N a) = true).
  { assert (O := ph_pauli _ Pa). rewrite <- Z.odd_spec in O. rewrite K1, K3, D2, D4, Z.add_0_r, Z.odd_add in O. rewrite <- Z.negb_odd. destruct (Z.odd (L_2N a)); [ discriminate | reflexivity ]. }
  assert (HTa : two_T_3N a = 1%Z) by (destruct (ph_T3 _ Pa) as (? & ? & ?); rewrite K3, D4 in *; lia).
  split; [ | split ].
  - apply Hst. split; [ split | ].
    + destruct Pa as [A1 A2 A3 A4 A5 A6 A7 A8], Pd as [B1 B2 B3 B4 B5 B6 B7 B8]. constructor; cbn [L_2N S_2N J_2N T_2N L_1N two_J_1N two_J_3N two_T_3N P_3N]; try assumption.
      * rewrite K2, D3, <- D3'. exact B5.
      * rewrite B8, D1'. rewrite !Z.even_add, Ev. reflexivity.
    + destruct Ma as [A1 A2 A3], Md as [B1 B2 B3]. constructor; cbn [L_2N S_2N J_2N T_2N L_1N two_J_1N two_J_3N two_T_3N P_3N]; [ exact A1 | exact B2 | exact A3 ].
    + unfold chn_of in *. cbn [two_J_3N P_3N]. exact Kd.
  - unfold same_pair. cbn [L_2N S_2N J_2N T_2N two_T_3N]. auto.
  - apply connects_iff. cbn [L_2N S_2N J_2N T_2N L_1N two_J_1N]. unfold same_2N_channel. cbn [L_2N S_2N J_2N T_2N L_1N two_J_1N]. split; [ | auto ].
    split; [ congruence | ]. split; [ congruence | ]. split; [ congruence | ]. right. split; [ reflexivity | ]. rewrite D1', Z.add_0_r. apply Z.even_spec. exact Ev.
Qed.

Lemma signs_equal s b d d' : (forall k x, k < D -> x < D -> C2 (so k) (so x) = (s x * C1 (so k) (so x))%R) -> b < Nq -> d < N -> d' < N ->
  is_deuteron (sta d) -> is_deuteron (sta d') -> s (idx3 Nq Np (d, b, 0)) = s (idx3 Nq Np (d', b, 0)).
Proof.
  intros HC Hb Hd Hd' Dd Dd'.
  assert (V : valid3 N Nq Np (d, b, 0)) by (cbn; lia). assert (V' : valid3 N Nq Np (d', b, 0)) by (cbn; lia).
  assert (X := idx3_lt N Nq Np _ V). assert (X' := idx3_lt N Nq Np _ V').
  assert (A := wp_orth _ _ _ HW1 _ _ X X). rewrite Nat.eqb_refl in A.
  destruct (sum_nonzero (fun k => C1 (so k) (so (idx3 Nq Np (d, b, 0%nat))) * C1 (so k) (so (idx3 Nq Np (d, b, 0%nat))))%R D ltac:(rewrite A; lra)) as (k & Hk & Hne).
  assert (Hn : C1 (so k) (so (idx3 Nq Np (d, b, 0))) <> 0%R) by (intros E; apply Hne; rewrite E; ring). clear Hne A.
  assert (Hcl := wp_zero _ _ _ HW1 _ _ Hn). assert (E2 := HC k _ Hk X). unfold cls in Hcl.
  rewrite (state_of_idx N Nq Np _ V) in *. destruct (so_valid k Hk) as [Vk Ek]. destruct (so k) as [[a iq] i] eqn:Esk. destruct Hcl as [-> Hcn]. destruct Vk as (Ha & _ & Hi).
  destruct (partner_wave (sta a) (sta d) (sta d')) as (w & Iw & Sw & Cw); try (apply nth_In; assumption); try assumption.
  destruct (In_nth _ _ dummy_pw Iw) as (a' & Ha' & <-).
  assert (Sd : same_pair (sta d) (sta d')).
  { assert (Pd : physical (sta d)) by (apply (Hst (sta d)), nth_In, Hd). assert (Pd' : physical (sta d')) by (apply (Hst (sta d')), nth_In, Hd').
    destruct Dd as (? & ? & ? & T1), Dd' as (? & ? & ? & T2). destruct (ph_T3 _ Pd) as (? & ? & ?). destruct (ph_T3 _ Pd') as (? & ? & ?). rewrite T1 in *. rewrite T2 in *.
    unfold same_pair. repeat split; try congruence; lia. }
  assert (Vk' : valid3 N Nq Np (a', b, i)) by (cbn; auto). assert (Xk' := idx3_lt N Nq Np _ Vk').
  assert (E2' := HC _ _ Xk' X'). rewrite (state_of_idx N Nq Np _ V'), (state_of_idx N Nq Np _ Vk') in E2'.
  destruct HW1 as (_ & _ & F1 & _). destruct HW2 as (_ & _ & F2 & _).
  rewrite <- (F1 a a' d d' b b i 0 Ha Ha' Hd Hd' Hb Hb Hi ltac:(lia) Hcn Cw Sw Sd) in E2'.
  rewrite <- (F2 a a' d d' b b i 0 Ha Ha' Hd Hd' Hb Hb Hi ltac:(lia) Hcn Cw Sw Sd) in E2'.
  apply (Rmult_eq_reg_r (C1 (a, b, i) (d, b, 0))); [ | exact Hn ]. congruence.
Qed.

Lemma resolvents_equal E : same_below D (averaged_resolvent states Nq Np q C1 edge1 E) (averaged_resolvent states Nq Np q C2 edge2 E).
Proof.
  destruct basis_unique as (_ & HE & s & Hs & HC). intros x y Hx Hy. unfold averaged_resolvent, resolvent_op. apply ctotal_ext'. intros k Hk.
  rewrite (HC x k Hx Hk), (HC y k Hy Hk). f_equal.
  - f_equal. transitivity (s k * s k * (C1 (so x) (so k) * C1 (so y) (so k)))%R; [ rewrite (Hs k Hk); ring | ring ].
  - destruct (so_valid k Hk) as [Vk _]. destruct (so k) as [[a iq] i]. destruct Vk as (Ha & _ & Hi). rewrite (HE a i Ha ltac:(lia)), (HE a (i + 1) Ha ltac:(lia)). reflexivity.
Qed.
Lemma between_equal T b d d' : b < Nq -> d < N -> d' < N -> is_deuteron (sta d) -> is_deuteron (sta d') ->
  between D (fun i j => C1 (so i) (so j)) T (idx3 Nq Np (d, b, 0)) (idx3 Nq Np (d', b, 0)) =
  between D (fun i j => C2 (so i) (so j)) T (idx3 Nq Np (d, b, 0)) (idx3 Nq Np (d', b, 0)).
Proof.
  intros Hb Hd Hd' Dd Dd'. destruct basis_unique as (_ & _ & s & Hs & HC).
  assert (X : idx3 Nq Np (d, b, 0) < D) by (apply idx3_lt; cbn; lia). assert (X' : idx3 Nq Np (d', b, 0) < D) by (apply idx3_lt; cbn; lia).
  assert (Es := signs_equal s b d d' HC Hb Hd Hd' Dd Dd').
  unfold between. apply ctotal_ext'. intros i Hi. apply ctotal_ext'. intros j Hj. rewrite (HC i _ Hi X), (HC j _ Hj X'), <- Es.
  assert (E := Hs _ X). revert E. generalize (s (idx3 Nq Np (d, b, 0))) (C1 (so i) (so (idx3 Nq Np (d, b, 0)))) (C1 (so j) (so (idx3 Nq Np (d', b, 0)))). intros u v z E.
  destruct (T i j) as [tr ti]. unfold cmul, rc. cbn [fst snd]. f_equal.
  - transitivity (u * u * (v * tr * z))%R; [ rewrite E; ring | ring ].
  - transitivity (u * u * (v * ti * z))%R; [ rewrite E; ring | ring ].
Qed.
End Det.
