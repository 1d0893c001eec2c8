From Coq Require Import Reals.
From Verif Require Import Common ArrayLib PWModel PWSpec PWChnProofs PWPropsLemmas SwpModel SwpProofs ResolventModel ResolventSpec.
Open Scope nat_scope.

Lemma e_block_spec iso Np Jm s : physical s -> (J_2N s <= Jm)%Z -> (two_T_3N s = 1 \/ two_T_3N s = 3)%Z ->
  exists coup i, matrix_of true iso s = (coup, Ok i) /\
    (0 <= i < if coup then num_2N_coup_states true iso Jm else num_2N_unco_states true iso Jm)%Z /\
    e_block true iso (zn Np) s = Ok (coup, Z.of_nat (e_offset Np coup i s)).
Proof.
  intros Hp HJ HT. destruct (unique_range_tensor iso Jm s Hp HJ) as (i & Hi & Hr).
  rewrite matrix_of_id. exists (fst (mat_id true iso s)), i.
  split; [ rewrite <- Hi; apply surjective_pairing | ]. split; [ exact Hr | ].
  apply phys_cases in Hp. rewrite odd_mod in Hp.
  unfold mat_id in *. cbn [fst snd] in *. unfold e_block.
  assert (Hc : coupled_matrix true iso s s = coupled_via_L_diag true s || coupled_via_T_3N iso s).
  { unfold coupled_matrix, coupled_via_L_2N, coupled_via_L_diag. rewrite Z.eqb_refl. cbn [negb orb andb]. reflexivity. }
  assert (Hx : coupled_via_L_diag true s && coupled_via_T_3N iso s = false).
  { unfold coupled_via_L_diag, coupled_via_T_3N. destruct iso; lia. }
  rewrite Hx. rewrite Hc in *.
  assert (Hz : Z.to_nat i = Z.to_nat i) by reflexivity.
  destruct (coupled_via_L_diag true s) eqn:EL; cbn [orb] in *.
  - rewrite Hi. cbn [obind]. do 2 f_equal. unfold e_offset, zn, second_half. cbn [andb].
    assert (S_2N s =? 1 = true)%Z as -> by (unfold coupled_via_L_diag in EL; lia).
    unfold coupled_via_L_diag in EL.
    replace (J_2N s <? L_2N s)%Z with (negb (L_2N s <? J_2N s)%Z) by lia.
    destruct (L_2N s <? J_2N s)%Z; cbn [negb]; lia.
  - destruct (coupled_via_T_3N iso s) eqn:ET.
    + rewrite Hi. cbn [obind]. do 2 f_equal. unfold e_offset, zn, second_half. cbn [andb].
      assert (S_2N s =? 1 = false)%Z as -> by (unfold coupled_via_T_3N in ET; lia).
      replace (two_T_3N s =? 3)%Z with (negb (two_T_3N s =? 1)%Z) by lia.
      destruct (two_T_3N s =? 1)%Z; cbn [negb]; lia.
    + rewrite Hi. cbn [obind]. do 2 f_equal. unfold e_offset, zn. cbn [andb]. lia.
Qed.

Lemma phys_T3 s : physical s -> (two_T_3N s = 1 \/ two_T_3N s = 3)%Z.
Proof.
  intros [HS HT _ _ _ HT3 _ _]. unfold couples in *.
  destruct HT as (_ & _ & HT & _). destruct HT3 as (_ & _ & H3 & [k Hk]). lia.
Qed.

Section Arr.
Variables (iso : bool) (Jm : Z) (Np Nq : nat) (e_unco e_coup q : list R) (states : list pw).
Hypothesis Hstates : forall s, In s states -> physical s /\ (J_2N s <= Jm)%Z.
Hypothesis Lunco : Z.of_nat (length e_unco) = (num_2N_unco_states true iso Jm * zn (Np + 1))%Z.
Hypothesis Lcoup : Z.of_nat (length e_coup) = (num_2N_coup_states true iso Jm * zn (2 * (Np + 1)))%Z.
Hypothesis Lq : length q = Nq + 1.
Let dim := length states * Np * Nq.

(* the value of a cell as a function of everything it depends on *)
Definition cell_of (E : R) (s : pw) (iq p : nat) : cdouble :=
  match matrix_of true iso s with
  | (coup, Ok i) =>
      let e := if coup then e_coup else e_unco in
      let o := e_offset Np coup i s in
      cell_value E (nth iq q 0%R) (nth (iq + 1) q 0%R) (nth (o + p) e 0%R) (nth (o + p + 1) e 0%R)
  | _ => (0%R, 0%R)
  end.

Definition slot (base a iq p : nat) : nat := base + (a * Nq * Np + iq * Np + p).

Definition state_writes (E : R) (base a : nat) (s : pw) : list (nat * cdouble) :=
  flat_map (fun p => map (fun iq => (slot base a iq p, cell_of E s iq p)) (seq 0 Nq)) (seq 0 Np).

Lemma offset_bound (coup : bool) (i : Z) (s : pw) (p : nat) :
  (0 <= i < if coup then num_2N_coup_states true iso Jm else num_2N_unco_states true iso Jm)%Z -> p < Np ->
  e_offset Np coup i s + p + 1 < length (if coup then e_coup else e_unco).
Proof.
  intros Hi Hp. unfold e_offset, zn in *. destruct coup; cbn [andb].
  - destruct (second_half s); nia.
  - nia.
Qed.

Lemma state_eq E base a s G : In s states ->
  resolvent_state true iso Np Nq e_unco e_coup q E base G a s = ofold wr (state_writes E base a s) G.
Proof.
  intros Hs. destruct (Hstates s Hs) as [Hp HJ].
  destruct (e_block_spec iso Np Jm s Hp HJ (phys_T3 s Hp)) as (coup & i & Hm & Hi & Hb).
  unfold resolvent_state. rewrite Hb. cbn [obind].
  unfold state_writes. apply ofold_flat. intros p s0 Hpin. apply in_seq in Hpin.
  pose proof (offset_bound coup i s p Hi ltac:(lia)) as Ho.
  rewrite (zread_ok _ (Z.of_nat (e_offset Np coup i s) + zn p) 0%R) by (unfold zn; lia). cbn [obind].
  rewrite (zread_ok _ (Z.of_nat (e_offset Np coup i s) + zn p + 1) 0%R) by (unfold zn; lia). cbn [obind].
  rewrite ofold_map. apply ofold_ext. intros iq s1 Hq. apply in_seq in Hq.
  destruct (aread_ok q iq) as (x & Ex & Nx); [ lia | ]. destruct (aread_ok q (iq + 1)) as (y & Ey & Ny); [ lia | ].
  rewrite Ex, Ey. cbn [obind]. unfold wr, slot, cell_of. cbn [fst snd]. rewrite Hm.
  rewrite (nth_error_nth _ _ 0%R Nx), (nth_error_nth _ _ 0%R Ny).
  replace (Z.to_nat (Z.of_nat (e_offset Np coup i s) + zn p)) with (e_offset Np coup i s + p) by (unfold zn; lia).
  replace (Z.to_nat (Z.of_nat (e_offset Np coup i s) + zn p + 1)) with (e_offset Np coup i s + p + 1) by (unfold zn; lia).
  reflexivity.
Qed.

Definition array_writes (E : R) (base : nat) : list (nat * cdouble) :=
  flat_map (fun sa => state_writes E base (fst sa) (snd sa)) (combine (seq 0 (length states)) states).
Lemma array_eq E base G :
  resolvent_array true iso Np Nq e_unco e_coup q E base states G = ofold wr (array_writes E base) G.
Proof.
  unfold resolvent_array, array_writes. apply ofold_flat. intros [a s] G' Hin. cbn [fst snd].
  apply state_eq. apply (in_combine_r _ _ _ _ Hin).
Qed.

Definition all_writes (energies : list R) : list (nat * cdouble) :=
  flat_map (fun je => array_writes (snd je) (fst je * dim)) (combine (seq 0 (length energies)) energies).
Lemma all_eq energies G :
  all_resolvents true iso Np Nq e_unco e_coup q states energies G = ofold wr (all_writes energies) G.
Proof.
  unfold all_resolvents, all_writes. apply ofold_flat. intros [j E] G' Hin. cbn [fst snd]. apply array_eq.
Qed.

Lemma in_all_writes energies w : In w (all_writes energies) <->
  exists j E a s iq p, nth_error energies j = Some E /\ nth_error states a = Some s /\ iq < Nq /\ p < Np /\
    w = (slot (j * dim) a iq p, cell_of E s iq p).
Proof.
  unfold all_writes, array_writes, state_writes. rewrite in_flat_map. split.
  - intros ([j E] & Hj & H). apply in_combine_seq in Hj. rewrite Nat.sub_0_r in Hj. apply in_flat_map in H.
    destruct H as ([a s] & Ha & H). apply in_combine_seq in Ha. rewrite Nat.sub_0_r in Ha. cbn [fst snd] in *.
    apply in_flat_map in H. destruct H as (p & Hp & H). apply in_map_iff in H. destruct H as (iq & <- & Hq).
    apply in_seq in Hp, Hq. exists j, E, a, s, iq, p. repeat split; try tauto; lia.
  - intros (j & E & a & s & iq & p & Hj & Ha & Hq & Hp & ->). exists (j, E).
    split; [ apply in_combine_seq; rewrite Nat.sub_0_r; split; [ lia | exact Hj ] | ].
    apply in_flat_map. exists (a, s). split; [ apply in_combine_seq; rewrite Nat.sub_0_r; split; [ lia | exact Ha ] | ].
    cbn [fst snd]. apply in_flat_map. exists p. split; [ apply in_seq; lia | ]. apply in_map_iff. exists iq.
    split; [ reflexivity | apply in_seq; lia ].
Qed.

Lemma slot_lt j a iq p n : j < n -> a < length states -> iq < Nq -> p < Np -> slot (j * dim) a iq p < n * dim.
Proof.
  intros Hj Ha Hq Hp. unfold slot.
  pose proof (rm_lt Nq Np iq p Hq Hp) as H1.
  pose proof (rm_lt (length states) (Nq * Np) a (iq * Np + p) Ha H1) as H2.
  assert (H3 : a * Nq * Np + iq * Np + p < dim) by (unfold dim; nia).
  pose proof (rm_lt n dim j _ Hj H3). lia.
Qed.
Lemma slot_inj j a iq p j' a' iq' p' : a < length states -> a' < length states ->
  iq < Nq -> iq' < Nq -> p < Np -> p' < Np ->
  slot (j * dim) a iq p = slot (j' * dim) a' iq' p' -> j = j' /\ a = a' /\ iq = iq' /\ p = p'.
Proof.
  intros Ha Ha' Hq Hq' Hp Hp' H. unfold slot in H.
  pose proof (rm_lt Nq Np iq p Hq Hp) as H1. pose proof (rm_lt Nq Np iq' p' Hq' Hp') as H1'.
  pose proof (rm_lt (length states) (Nq * Np) a (iq * Np + p) Ha H1) as H2.
  pose proof (rm_lt (length states) (Nq * Np) a' (iq' * Np + p') Ha' H1') as H2'.
  assert (H3 : a * (Nq * Np) + (iq * Np + p) < dim) by (unfold dim; nia).
  assert (H3' : a' * (Nq * Np) + (iq' * Np + p') < dim) by (unfold dim; nia).
  destruct (rm_inj dim j (a * (Nq * Np) + (iq * Np + p)) j' (a' * (Nq * Np) + (iq' * Np + p')) H3 H3' ltac:(lia)) as [-> E1].
  destruct (rm_inj (Nq * Np) a (iq * Np + p) a' (iq' * Np + p') H1 H1' E1) as [-> E2].
  destruct (rm_inj Np iq p iq' p' Hp Hp' E2) as [-> ->]. auto.
Qed.

Lemma all_resolvents_spec energies G : length G = length energies * dim ->
  exists G', all_resolvents true iso Np Nq e_unco e_coup q states energies G = Ok G' /\ length G' = length G /\
    forall j E a s iq p, nth_error energies j = Some E -> nth_error states a = Some s -> iq < Nq -> p < Np ->
      nth_error G' (j * dim + (a * Nq * Np + iq * Np + p)) = Some (cell_of E s iq p).
Proof.
  intros LG. rewrite all_eq.
  destruct (scatter (@fst nat cdouble) (@snd nat cdouble) (all_writes energies) G) as (G' & Eq & L & W & _).
  - intros w Hw. apply in_all_writes in Hw. destruct Hw as (j & E & a & s & iq & p & Hj & Ha & Hq & Hp & ->).
    cbn [fst]. rewrite LG. apply slot_lt; try assumption; apply nth_error_Some; congruence.
  - intros w w' Hw Hw' He. apply in_all_writes in Hw, Hw'.
    destruct Hw as (j & E & a & s & iq & p & Hj & Ha & Hq & Hp & ->).
    destruct Hw' as (j' & E' & a' & s' & iq' & p' & Hj' & Ha' & Hq' & Hp' & ->). cbn [fst snd] in *.
    apply slot_inj in He; try assumption; try (apply nth_error_Some; congruence).
    destruct He as (-> & -> & -> & ->). congruence.
  - exists G'. split; [ exact Eq | ]. split; [ exact L | ]. intros j E a s iq p Hj Ha Hq Hp.
    specialize (W (slot (j * dim) a iq p, cell_of E s iq p)). cbn [fst snd] in W. unfold slot in W.
    apply W. apply in_all_writes. exists j, E, a, s, iq, p. auto.
Qed.
End Arr.
