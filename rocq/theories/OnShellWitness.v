From Coq Require Import Reals Lra Sorted.
From Verif Require Import Common ArrayLib PWModel PWSpec PWProofs PWChnProofs PWPropsLemmas SwpModel SwpProofs ResolventModel ResolventSpec ResolventArrayProofs
  GridModel GridSpec GridProofs GridPropsLemmas OnShellModel OnShellSpec OnShellProofs OnShellBreakupProofs OnShellPropsLemmas OnShellBreakupProofs2.
Open Scope nat_scope.

(* ---------- narrow bins: the recorded index is another bin's ---------- *)
Lemma ex_elastic : exists os, elastic_bins 3 ex_q (-2.2) [mid_T_lab (-2.2) 1000 1000.001] = Ok os /\ In 1 (os_bins os) /\ os_idx os <> os_bins os.
Proof.
  pose proof ex_ratio as Hr. assert (HE : (- (Mn + Mp) < -2.2)%R) by (unfold Mn, Mp; lra).
  assert (Lq : length ex_q = 3 + 1) by reflexivity.
  pose proof (elastic_ok 3 ex_q (-2.2) [mid_T_lab (-2.2) 1000 1000.001] Lq ltac:(lia) HE) as E.
  assert (H1 : In 1 (selected 3 ex_q (-2.2) [mid_T_lab (-2.2) 1000 1000.001])).
  { assert (HI : exists T j, In T [mid_T_lab (-2.2) 1000 1000.001] /\ j + 1 < 3 /\ (mid ex_q (-2.2) j <= T <= mid ex_q (-2.2) (j + 1))%R /\ (1 = j \/ 1 = j + 1)).
    { exists (mid_T_lab (-2.2) 1000 1000.001), 1. split; [ left; reflexivity | ]. split; [ lia | ]. split; [ | lia ].
      pose proof (part_mid_lt 3 ex_q (-2.2) 1 2 HE ex_q_partition ltac:(lia) ltac:(lia)) as Hm.
      unfold mid, lower, upper, ex_q in *. cbn [nth plus] in *. lra. }
    first [ apply (in_selected 3 ex_q (-2.2) _ Lq), HI | apply in_selected, HI ]. }
  assert (Hf : forall l, (forall i, In i l -> i < 3) -> exists r, all_some (map (home 3 ex_q (-2.2)) l) = Some r).
  { assert (Hk : forall i, i < 3 -> home 3 ex_q (-2.2) i = Some 0).
    { intros i Hi. unfold home. apply (find_in_bin 3); [ exact ex_q_partition | lia | ].
      pose proof (mid_k_sq (-2.2) HE (lower ex_q i) (upper ex_q i)) as Hs. pose proof (mid_k_nonneg (-2.2) (lower ex_q i) (upper ex_q i)) as H0. fold (kmid ex_q (-2.2) i) in Hs, H0.
      assert (Hx : (0 < lower ex_q i * lower ex_q i + upper ex_q i * upper ex_q i <= 2000007)%R).
      { destruct i as [|[|[|i]]]; [ | | | lia ]; unfold lower, upper, ex_q; cbn [nth plus]; lra. }
      change (lower ex_q 0) with 0%R. change (upper ex_q 0) with 1000%R.
      generalize dependent (lower ex_q i * lower ex_q i + upper ex_q i * upper ex_q i)%R. intros x Hs Hx.
      assert (0 < kmid ex_q (-2.2) i * kmid ex_q (-2.2) i < 1000 * 1000)%R 
        by (rewrite Hs; assert (0 < mass_ratio (-2.2) * x <= mass_ratio (-2.2) * 2000007)%R by (split; [ apply Rmult_lt_0_compat; lra | apply Rmult_le_compat_l; lra ]); lra). nra. }
    induction l as [|i l IH]; intros H; [ exists []; reflexivity | ]. destruct IH as (r & Hr'); [ intros; apply H; right; assumption | ].
    cbn [map all_some]. rewrite Hk by (apply H; left; reflexivity). rewrite Hr'. eexists. reflexivity. }
  destruct (Hf (selected 3 ex_q (-2.2) [mid_T_lab (-2.2) 1000 1000.001])) as (idx & Hidx).
  { intros i Hi. apply filter_In in Hi. destruct Hi as [Hi _]. apply in_seq in Hi. lia. }
  rewrite Hidx in E. eexists. split; [ exact E | ]. split; [ exact H1 | ].
  apply (proj2 (proj2 (bin_home 3 ex_q (-2.2) [mid_T_lab (-2.2) 1000 1000.001] ltac:(lia) ex_q_partition HE)) _ 1 E H1).
  unfold lower, upper, ex_q. cbn [nth plus]. lra.
Qed.

(* ---------- breakup ---------- *)
Open Scope R_scope.
Definition bu_q : list R := [0; 100; 200].
Definition bu_e : list R := [0; 2; 2.5; 3; 1000].
Definition bu_unco : list R := bu_e ++ bu_e ++ bu_e ++ bu_e.
Definition bu_coup : list R := [-2.2; 0; 2; 3; 1000] ++ bu_e.
Definition bu_states : list pw := [ mkpw 0 1 1 0 0 1 1 1 1; mkpw 0 0 0 1 0 1 1 1 1 ].
Definition bu_T : R := mid_T_lab (-2.2) 0 100.

Lemma bu_part : partition_from_zero 2 bu_q.
Proof.
  split; [ reflexivity | ]. split; [ reflexivity | ]. intros i j H.
  destruct i as [|[|[|i]]], j as [|[|[|j]]]; try (exfalso; cbn in H; Lia.lia); cbn; lra.
Qed.
Lemma bu_phys : forall s, In s bu_states -> physical s /\ (J_2N s <= 1)%Z.
Proof.
  intros s [<-|[<-|[]]]; (split; [ | cbn; lia ]); constructor; pws; unfold couples; try lia; try reflexivity;
  try (split; [ lia | split; [ lia | split; [ lia | apply Z.even_spec; reflexivity ] ] ]); try (apply Z.odd_spec; reflexivity).
Qed.
Lemma bu_num_u : num_2N_unco_states true false 1 = 4%Z. Proof. reflexivity. Qed.
Lemma bu_num_c : num_2N_coup_states true false 1 = 1%Z. Proof. reflexivity. Qed.
Lemma bu_Lu : Z.of_nat (length bu_unco) = (num_2N_unco_states true false 1 * Z.of_nat (4 + 1))%Z. Proof. reflexivity. Qed.
Lemma bu_Lc : Z.of_nat (length bu_coup) = (num_2N_coup_states true false 1 * Z.of_nat (2 * (4 + 1)))%Z. Proof. reflexivity. Qed.
Lemma bu_bnd0 k : bnd false 4 bu_unco bu_coup bu_states 0 k = nth k bu_coup 0. Proof. reflexivity. Qed.
Lemma bu_bnd1 k : bnd false 4 bu_unco bu_coup bu_states 1 k = nth k bu_unco 0. Proof. reflexivity. Qed.
Lemma bu_asc a k : (a < length bu_states)%nat -> (k < 4)%nat ->
  bnd false 4 bu_unco bu_coup bu_states a k < bnd false 4 bu_unco bu_coup bu_states a (k + 1).
Proof.
  intros Ha Hk. destruct a as [|[|a]]; [ rewrite !bu_bnd0 | rewrite !bu_bnd1 | cbn in Ha; Lia.lia ];
  destruct k as [|[|[|[|k]]]]; try Lia.lia; cbn [nth plus bu_unco bu_coup bu_e app]; lra.
Qed.
Definition bu_E0 : R := 3 * (mass_ratio (-2.2) * 5000) / (4 * MN).
Definition bu_E1 : R := 3 * (mass_ratio (-2.2) * 25000) / (4 * MN).
Lemma bu_E0_range : 3.9 < bu_E0 < 4.
Proof. pose proof ex_ratio. unfold bu_E0, MN, Mn, Mp in *. lra. Qed.
Lemma bu_E1_range : 19.5 < bu_E1 < 20.
Proof. pose proof ex_ratio. unfold bu_E1, MN, Mn, Mp in *. lra. Qed.
Lemma bu_k100 : 7.9 < q_energy 100 < 8.
Proof. unfold q_energy, reduced_mass, Mn, Mp. lra. Qed.
Lemma bu_k200 : 31.9 < q_energy 200 < 32.
Proof. unfold q_energy, reduced_mass, Mn, Mp. lra. Qed.
Lemma bu_k0 : q_energy 0 = 0.
Proof. unfold q_energy. lra. Qed.
Lemma HEb : - (Mn + Mp) < -2.2. Proof. unfold Mn, Mp; lra. Qed.

Lemma bu_elastic : exists os, elastic_bins 2 bu_q (-2.2) [bu_T] = Ok os /\ os_bins os = [0; 1]%nat /\ os_E os = [bu_E0; bu_E1].
Proof.
  pose proof ex_ratio as Hr.
  destruct (proj1 (proj2 (bin_home 2 bu_q (-2.2) [bu_T] ltac:(Lia.lia) bu_part HEb))) as (os & Ho & _).
  { intros i Hi. destruct i as [|[|i]]; [ | | Lia.lia ]; unfold lower, upper, bu_q; cbn [nth plus]; lra. }
  exists os. split; [ exact Ho | ].
  pose proof (elastic_ok 2 bu_q (-2.2) [bu_T] ltac:(reflexivity) ltac:(Lia.lia) HEb) as E. rewrite E in Ho.
  assert (Hsel : selected 2 bu_q (-2.2) [bu_T] = [0; 1]%nat).
  { pose proof (part_mid_lt 2 bu_q (-2.2) 0 1 HEb bu_part ltac:(Lia.lia) ltac:(Lia.lia)) as Hm.
    unfold selected, bin_marked. cbn [seq Nat.sub filter existsb Nat.eqb orb andb plus].
    assert (Hp : pair_marked bu_q (-2.2) [bu_T] 0 = true).
    { unfold pair_marked. cbn [existsb]. rewrite orb_false_r. unfold between. rewrite andb_true_iff, !Rleb_true.
      change (mid bu_q (-2.2) 0) with bu_T in *. cbn [plus]. lra. }
    rewrite Hp. reflexivity. }
  rewrite Hsel in Ho. destruct (all_some _); [ | discriminate ]. injection Ho as <-. cbn [os_bins os_E map]. split; [ reflexivity | ].
  assert (Hk : forall i, com_q_momentum_to_com_energy (kmid bu_q (-2.2) i) = 3 * (mass_ratio (-2.2) * ((lower bu_q i * lower bu_q i + upper bu_q i * upper bu_q i) / 2)) / (4 * MN)).
  { intros i. rewrite <- (mid_k_sq (-2.2) HEb). unfold com_q_momentum_to_com_energy, kmid. unfold Rdiv. ring. }
  rewrite !Hk. unfold bu_E0, bu_E1, lower, upper, bu_q. cbn [nth plus]. f_equal; [ | f_equal ]; f_equal; f_equal; f_equal; lra.
Qed.

Lemma bu_run : exists os cells ends,
  find_on_shell_bins true false true 4 2 bu_unco bu_coup bu_q bu_states (-2.2) [bu_T] = Ok (os, Some (cells, ends)) /\
  os_E os = [bu_E0; bu_E1] /\ nth 0 ends 0%nat = 0%nat /\ In (1, 0, 3)%Z (firstn (nth 1 ends 0%nat) cells) /\ In (1, 0, -1)%Z (firstn (nth 1 ends 0%nat) cells).
Proof.
  destruct bu_elastic as (os & Ho & _ & HE). exists os.
  pose proof bu_E0_range as R0. pose proof bu_E1_range as R1. pose proof bu_k100 as K1. pose proof bu_k200 as K2. pose proof bu_k0 as K0.
  destruct (breakup_main false 1 4 2 bu_unco bu_coup bu_q bu_states (-2.2) bu_phys bu_Lu bu_Lc bu_part bu_asc [bu_E0; bu_E1]) as (_ & Hd & Hall).
  assert (Hshell : forall E ip, (ip < 4)%nat -> nth ip bu_e 0 <= E <= nth (ip + 1) bu_e 0 + q_energy 100 ->
     shell false 4 2 bu_unco bu_coup bu_q bu_states E 1 0 ip).
  { intros E ip Hip Hb. unfold shell, on_shell_cell. rewrite !bu_bnd1. split; [ cbn; Lia.lia | ].
    change (lower bu_q 0) with 0. change (upper bu_q 0) with 100. rewrite K0. unfold holds_energy.
    assert (nth ip bu_unco 0 = nth ip bu_e 0 /\ nth (ip + 1) bu_unco 0 = nth (ip + 1) bu_e 0) as [-> ->]
      by (destruct ip as [|[|[|[|ip]]]]; [ split; reflexivity .. | Lia.lia ]).
    assert (0 <= nth ip bu_e 0 /\ 0 <= nth (ip + 1) bu_e 0) by (destruct ip as [|[|[|[|ip]]]]; [ cbn; lra .. | Lia.lia ]). lra. }
  destruct Hd as [(E & HIn & _ & Hno)|(cells & ends & Hc)].
  { exfalso. apply (Hno 1%nat 0%nat 3%nat), Hshell; [ Lia.lia | ]. destruct HIn as [<-|[<-|[]]]; cbn [nth plus bu_e]; lra. }
  exists cells, ends. split; [ unfold find_on_shell_bins; rewrite Ho; cbn [obind]; rewrite HE, Hc; reflexivity | ].
  split; [ exact HE | ]. destruct (Hall cells ends Hc) as (_ & H0 & _ & Hk). split; [ exact H0 | ].
  destruct (Hk 0%nat bu_E0 eq_refl) as (_ & Hm). cbn zeta in Hm. destruct Hm as [_ Hm]. rewrite H0 in Hm. cbn [skipn] in Hm. rewrite Nat.sub_0_r in Hm.
  assert (Hpos : 0 <= bu_E0 + -2.2) by lra. specialize (Hm Hpos). cbn [plus] in Hm. split; apply Hm.
  - exists 1%nat, 0%nat, 3%nat. split; [ apply Hshell; [ Lia.lia | cbn [nth plus bu_e]; lra ] | left; reflexivity ].
  - exists 1%nat, 0%nat, 0%nat. split; [ apply Hshell; [ Lia.lia | cbn [nth plus bu_e]; lra ] | ].
    unfold stored, stored_for_cell, stored_for. cbn zeta. right. right. left. unfold p_side. destruct (Rle_dec _ _) as [Hle|Hle]; [ exfalso | reflexivity ].
    change (lower bu_q 0) with 0 in Hle. change (upper bu_q 0) with 100 in Hle. rewrite K0, !bu_bnd1 in Hle. cbn [nth plus bu_unco bu_e app] in Hle. 
    clear -Hle R0 K1. lra.
Qed.
