From Coq Require Import Reals Lra Sorted.
From Verif Require Import Common ArrayLib PWModel PWSpec PWChnProofs PWPropsLemmas SwpModel SwpProofs ResolventModel ResolventSpec ResolventArrayProofs
  GridModel GridSpec GridProofs GridPropsLemmas OnShellModel OnShellSpec OnShellProofs OnShellBreakupProofs.
Open Scope nat_scope.

Lemma bins_bracket Nq q Eb inputs : 1 <= Nq -> partition_from_zero Nq q -> (- (Mn + Mp) < Eb)%R ->
  exists mid : nat -> R,
   (forall i, i < Nq -> (0 <= mid i)%R /\ com_momentum_of Mp (Mn + Mp + Eb) (mid i) (mid_momentum Eb (lower q i) (upper q i))) /\
   (forall i j, i < j -> j < Nq -> (mid i < mid j)%R) /\
   (elastic_bins Nq q Eb inputs = Err \/ exists os, elastic_bins Nq q Eb inputs = Ok os) /\
   forall os, elastic_bins Nq q Eb inputs = Ok os ->
     StronglySorted lt (os_bins os) /\
     (forall i, In i (os_bins os) <->
        exists T j, In T inputs /\ j + 1 < Nq /\ (mid j <= T <= mid (j + 1)%nat)%R /\ (i = j \/ i = j + 1)) /\
     (forall T, In T inputs -> 2 <= Nq -> (mid 0%nat <= T <= mid (Nq - 1)%nat)%R ->
        exists j, j + 1 < Nq /\ (mid j <= T <= mid (j + 1)%nat)%R /\ In j (os_bins os) /\ In (j + 1) (os_bins os)) /\
     os_T os = map mid (os_bins os) /\
     os_q os = map (fun i => mid_momentum Eb (lower q i) (upper q i)) (os_bins os) /\
     os_E os = map (fun k => 3 * k * k / (4 * MN))%R (os_q os).
Proof.
  intros HN P HE. pose proof P as (Lq & _). exists (mid q Eb).
  split; [ intros i Hi; split; [ apply mid_T_nonneg, HE | apply mid_T_physical, HE ] | ].
  split; [ intros i j Hij Hj; exact (part_mid_lt Nq q Eb i j HE P Hij Hj) | ].
  pose proof (elastic_ok Nq q Eb inputs Lq HN HE) as Ee.
  split. { rewrite Ee. destruct (all_some _); [ right; eexists; reflexivity | left; reflexivity ]. }
  intros os Ho. rewrite Ee in Ho. destruct (all_some (map (home Nq q Eb) (selected Nq q Eb inputs))) as [idx|] eqn:Ea; [ | discriminate ].
  injection Ho as <-. cbn [os_bins os_T os_q os_E].
  split; [ first [ exact (selected_sorted Nq q Eb inputs) | exact (selected_sorted Nq q Eb inputs Lq) ] | ].
  assert (HI : forall i, In i (selected Nq q Eb inputs) <-> exists T j, In T inputs /\ j + 1 < Nq /\ (mid q Eb j <= T <= mid q Eb (j + 1))%R /\ (i = j \/ i = j + 1))
    by (intros i0; first [ apply (in_selected Nq q Eb inputs Lq) | apply (in_selected Nq q Eb inputs) ]).
  split; [ exact HI | ].
  split.
  { intros T HT H2 Hr. destruct (bracket (mid q Eb) (Nq - 1) T Hr) as (j & Hj & Hb); [ lia | ].
    exists j. split; [ lia | ]. split; [ exact Hb | ]. rewrite !HI.
    split; exists T, j; repeat split; try tauto; try lia; try (apply Hb). }
  split; [ reflexivity | ]. split; [ reflexivity | ]. rewrite map_map. reflexivity.
Qed.

Lemma F2_impl {A B} (P Q : A -> B -> Prop) l r : (forall a b, P a b -> Q a b) -> Forall2 P l r -> Forall2 Q l r.
Proof. intros H F. induction F; constructor; auto. Qed.

Lemma bin_home Nq q Eb inputs : 1 <= Nq -> partition_from_zero Nq q -> (- (Mn + Mp) < Eb)%R ->
  (forall os, elastic_bins Nq q Eb inputs = Ok os ->
     Forall2 (fun i j => j < Nq /\ (lower q j < mid_momentum Eb (lower q i) (upper q i) < upper q j)%R) (os_bins os) (os_idx os)) /\
  ((forall i, i < Nq -> (lower q i * lower q i < mass_ratio Eb * ((lower q i * lower q i + upper q i * upper q i) / 2) < upper q i * upper q i)%R) ->
     exists os, elastic_bins Nq q Eb inputs = Ok os /\ os_idx os = os_bins os) /\
  (forall os i, elastic_bins Nq q Eb inputs = Ok os -> In i (os_bins os) ->
     (mass_ratio Eb * ((lower q i * lower q i + upper q i * upper q i) / 2) <= lower q i * lower q i)%R -> os_idx os <> os_bins os).
Proof.
  intros HN P HE. pose proof P as (Lq & _). rewrite (elastic_ok Nq q Eb inputs Lq HN HE).
  assert (A : forall os, match all_some (map (home Nq q Eb) (selected Nq q Eb inputs)) with
    | Some idx => Ok (mkos (selected Nq q Eb inputs) (map (mid q Eb) (selected Nq q Eb inputs)) (map (kmid q Eb) (selected Nq q Eb inputs))
         (map (fun i => com_q_momentum_to_com_energy (kmid q Eb i)) (selected Nq q Eb inputs)) idx) | None => Err end = Ok os ->
     Forall2 (fun i j => j < Nq /\ (lower q j < mid_momentum Eb (lower q i) (upper q i) < upper q j)%R) (os_bins os) (os_idx os)).
  { intros os Ho. destruct (all_some (map (home Nq q Eb) (selected Nq q Eb inputs))) as [idx|] eqn:Ea; [ | discriminate ].
    injection Ho as <-. cbn [os_bins os_idx]. apply all_some_Forall2 in Ea. eapply F2_impl; [ | exact Ea ].
    intros i j Hij. apply find_some in Hij. destruct Hij as [Hj Hb]. apply in_seq in Hj. unfold in_bin in Hb. rewrite andb_true_iff, !Rltb_true in Hb.
    split; [ lia | exact Hb ]. }
  split; [ exact A | ]. split.
  - intros Hw. assert (Hh : all_some (map (home Nq q Eb) (selected Nq q Eb inputs)) = Some (selected Nq q Eb inputs)).
    { apply all_some_Forall2. assert (Hsel : forall i, In i (selected Nq q Eb inputs) -> i < Nq).
      { intros i Hi. apply filter_In in Hi. destruct Hi as [Hi _]. apply in_seq in Hi. lia. }
      clear A. revert Hsel. induction (selected Nq q Eb inputs) as [|i l IH]; intros Hsel; [ constructor | ].
      constructor; [ | apply IH; intros; apply Hsel; right; assumption ].
      specialize (Hsel i (or_introl eq_refl)). apply find_in_bin; [ exact P | exact Hsel | ].
      specialize (Hw i Hsel). pose proof (mid_k_sq Eb HE (lower q i) (upper q i)) as Hk. pose proof (mid_k_nonneg Eb (lower q i) (upper q i)) as Hk0.
      pose proof (part_lu Nq q i P Hsel). unfold kmid. rewrite <- Hk in Hw. nra. }
    rewrite Hh. eexists. split; reflexivity.
  - intros os i Ho Hi Hlow Heq. specialize (A os Ho). rewrite Heq in A.
    assert (Hii : forall l : list nat, Forall2 (fun i j => j < Nq /\ (lower q j < mid_momentum Eb (lower q i) (upper q i) < upper q j)%R) l l -> In i l ->
       i < Nq /\ (lower q i < mid_momentum Eb (lower q i) (upper q i))%R).
    { induction l as [|x l IH]; intros F []; inversion F; subst; [ tauto | apply IH; assumption ]. }
    destruct (Hii _ A Hi) as [HiN Hlt]. pose proof (mid_k_sq Eb HE (lower q i) (upper q i)) as Hk. pose proof (part_lu Nq q i P HiN). nra.
Qed.

(* ---------- narrow bins: a concrete failure ---------- *)
Open Scope R_scope.
Definition ex_q : list R := [0; 1000; 1000.001; 1000.002].
Lemma ex_q_partition : partition_from_zero 3 ex_q.
Proof.
  split; [ reflexivity | ]. split; [ reflexivity | ]. intros i j H.
  destruct i as [|[|[|[|i]]]], j as [|[|[|[|j]]]]; try (exfalso; cbn in H; Lia.lia); cbn; lra.
Qed.
Lemma ex_ratio : 0.999 < mass_ratio (-2.2) < 0.99999.
Proof.
  unfold mass_ratio, reduced_mass, MN, Mn, Mp.
  replace (2/3 * (0.5 * (938272 / 1000 + 939565 / 1000)) / (939565 / 1000 * (939565 / 1000 + 938272 / 1000 + -2.2) / (939565 / 1000 + (939565 / 1000 + 938272 / 1000 + -2.2))))
    with ((2/3 * (0.5 * (938272 / 1000 + 939565 / 1000))) * (939565 / 1000 + (939565 / 1000 + 938272 / 1000 + -2.2)) / (939565 / 1000 * (939565 / 1000 + 938272 / 1000 + -2.2)))
    by (field; lra).
  split; [ apply Rmult_lt_reg_r with (939565 / 1000 * (939565 / 1000 + 938272 / 1000 + -2.2)); [ lra | ]
         | apply Rmult_lt_reg_r with (939565 / 1000 * (939565 / 1000 + 938272 / 1000 + -2.2)); [ lra | ] ];
  unfold Rdiv at 1; try (unfold Rdiv at 1); rewrite ?Rmult_assoc; lra.
Qed.
